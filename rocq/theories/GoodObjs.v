(** The objects of a document are values a reader can read back (C85):
    readable dictionaries are closed under the operations on a document. *)
From Coq Require Import String QArith.
From Verif Require Import Py PyStr PdfSyntax Parser Denote StreamProofs Base BaseProofs BaseProofs2 Store PageTree NameTree OutlineTree Fonts PdfObj PdfObjSpec PdfObjFonts PdfObjProofs PdfObjSteps PdfObjRun PdfObjOut PdfObjDoc PdfWhole.
Open Scope N_scope.
Open Scope list_scope.

(** ** Readable values *)
Definition dn (o : obj) : bool := match denote o with Some _ => true | None => false end.
Definition entry_ok (kv : str * obj) : Prop := plain_name (fst kv) = true /\ fst kv <> k_stream /\ dn (snd kv) = true.
Definition dgood (d : dict) : Prop := Forall entry_ok d.
(** The same but for the data of a stream. *)
Definition good (d : dict) : Prop := Forall (fun kv => fst kv = k_stream \/ entry_ok kv) d.
Lemma dgood_good d : dgood d -> good d.
Proof. apply Forall_impl. auto. Qed.

Lemma dn_some o : dn o = true -> exists v, denote o = Some v.
Proof. unfold dn. destruct (denote o); [eauto|discriminate]. Qed.
Lemma some_dn o v : denote o = Some v -> dn o = true.
Proof. unfold dn. now intros ->. Qed.

Lemma dgood_no_stream d : dgood d -> dmem k_stream d = false.
Proof.
  intros H. unfold dmem. destruct (dget k_stream d) as [v|] eqn:E; [|reflexivity]. apply dget_in in E.
  unfold dgood in H. rewrite Forall_forall in H. destruct (H _ E) as (_ & H2 & _). cbn in H2. congruence.
Qed.
Lemma dgood_denote d : dgood d -> exists vs, denote_dict d = Some vs /\ denote (ODict d) = Some (VDict vs) /\
  forall k, assoc k vs = match dget k d with Some o => denote o | None => None end.
Proof.
  intros H. pose proof (dgood_no_stream d H) as Hs. rewrite denote_ODict, Hs. clear Hs.
  induction H as [|[k v] d (H1 & H2 & H3) H IH].
  - exists []. split; [reflexivity|]. split; reflexivity.
  - destruct IH as (vs & E1 & _ & E3). cbn [fst snd] in *. apply dn_some in H3 as [v' H3].
    exists ((k, v') :: vs). cbn [denote_dict]. rewrite H1, H3, E1. split; [reflexivity|]. split; [reflexivity|].
    intros k'. cbn [assoc dget]. destruct (str_eqb k' k); [now rewrite H3|apply E3].
Qed.
Lemma denote_dict_entries d : forall vs, denote_dict d = Some vs -> Forall (fun kv => plain_name (fst kv) = true /\ dn (snd kv) = true) d.
Proof.
  induction d as [|[k v] d IH]; intros vs; cbn [denote_dict]; [constructor|].
  destruct (plain_name k) eqn:E1; [|discriminate]. destruct (denote v) eqn:E2; [|discriminate].
  destruct (denote_dict d) as [r|] eqn:E3; [|discriminate]. intros _. constructor; [cbn [fst snd]; split; [exact E1|eapply some_dn, E2]|].
  eapply IH. reflexivity.
Qed.
Lemma dn_dict d : dn (ODict d) = true <-> dgood d.
Proof.
  split.
  - intros H. apply dn_some in H as [v H]. rewrite denote_ODict in H. destruct (dmem k_stream d) eqn:Es; [discriminate|].
    destruct (denote_dict d) as [vs|] eqn:E; [|discriminate]. pose proof (denote_dict_entries _ _ E) as HE.
    apply Forall_forall. intros kv Hin. rewrite Forall_forall in HE. destruct (HE _ Hin) as [H1 H2].
    split; [exact H1|]. split; [|exact H2]. intros Hk. unfold dmem in Es.
    destruct (dget k_stream d) eqn:Eg; [discriminate|]. apply (proj1 (dget_none _ _)) in Eg. apply Eg. rewrite <- Hk.
    now apply in_map.
  - intros H. destruct (dgood_denote d H) as (vs & _ & E & _). eapply some_dn, E.
Qed.
Lemma dn_seq l : dn (OSeq l) = true <-> Forall (fun o => dn o = true) l.
Proof.
  unfold dn at 1. rewrite denote_OSeq. split.
  - destruct (denote_seq l) as [vs|] eqn:E; [|discriminate]. intros _. revert vs E. induction l as [|o l IH]; intros vs; [constructor|].
    cbn [denote_seq]. destruct (denote o) eqn:E1; [|discriminate]. destruct (denote_seq l) as [r|]; [|discriminate].
    intros _. constructor; [eapply some_dn, E1|]. eapply IH. reflexivity.
  - intros H. assert (exists vs, denote_seq l = Some vs) as [vs ->]; [|reflexivity].
    induction H as [|o l H HF [vs IH]]; [exists []; reflexivity|]. apply dn_some in H as [v H].
    exists (v :: vs). cbn [denote_seq]. now rewrite H, IH.
Qed.
Lemma denote_seq_map {A} (f : A -> obj) (g : A -> pval) l : (forall x, In x l -> denote (f x) = Some (g x)) ->
  denote_seq (map f l) = Some (map g l).
Proof.
  induction l as [|x l IH]; intros H; [reflexivity|]. cbn [map denote_seq]. rewrite (H x (or_introl eq_refl)).
  rewrite IH; [reflexivity|]. intros y Hy. apply H. now right.
Qed.
Lemma dn_oref n : dn (oref n) = true.
Proof. unfold dn, oref. cbn [denote]. replace (0 <=? Z.of_nat n)%Z with true by lia. reflexivity. Qed.
Lemma denote_oref n : denote (oref n) = Some (VRef (N.of_nat n) 0).
Proof. unfold oref. cbn [denote]. replace (0 <=? Z.of_nat n)%Z with true by lia. do 2 f_equal. lia. Qed.
Lemma dn_name b : plain_name b = true -> dn (OBytes (47 :: b)) = true.
Proof. intros H. unfold dn. cbn [denote denote_bytes]. now rewrite H. Qed.
Lemma dn_str s : plain_text s = true -> dn (OStr s) = true.
Proof. intros H. unfold dn. cbn [denote]. now rewrite H. Qed.

(** ** Closure *)
Lemma dset_cases {V} k (v : V) d x : In x (dset k v d) -> x = (k, v) \/ In x d.
Proof.
  induction d as [|[k' v'] d IH]; cbn [dset]; [intros [<-|[]]; now left|].
  destruct (str_eqb k k') eqn:E.
  - apply str_eqb_eq in E as ->. intros [<-|H]; [now left|right; now right].
  - intros [<-|H]; [right; now left|]. destruct (IH H) as [->|H1]; [now left|right; now right].
Qed.
Lemma dgood_dset k v d : entry_ok (k, v) -> dgood d -> dgood (dset k v d).
Proof.
  intros Hk Hd. apply Forall_forall. intros x Hx. apply dset_cases in Hx as [->|Hx]; [exact Hk|].
  unfold dgood in Hd. rewrite Forall_forall in Hd. auto.
Qed.
Lemma good_dset k v d : entry_ok (k, v) -> good d -> good (dset k v d).
Proof.
  intros Hk Hd. apply Forall_forall. intros x Hx. apply dset_cases in Hx as [->|Hx]; [now right|].
  unfold good in Hd. rewrite Forall_forall in Hd. auto.
Qed.
Lemma good_get k v d : good d -> k <> k_stream -> dget k d = Some v -> dn v = true.
Proof.
  intros H Hk E. apply dget_in in E. unfold good in H. rewrite Forall_forall in H. destruct (H _ E) as [H1|H1]; [contradiction|apply H1].
Qed.
Lemma good_plain d : good d -> dmem k_stream d = false -> dgood d.
Proof.
  intros H Hs. apply Forall_forall. intros kv Hkv. unfold good in H. rewrite Forall_forall in H. destruct (H _ Hkv) as [H1|H1]; [|exact H1].
  exfalso. unfold dmem in Hs. destruct (dget k_stream d) eqn:E; [discriminate|]. apply (proj1 (dget_none _ _)) in E. apply E.
  rewrite <- H1. now apply in_map.
Qed.
Lemma dgood_get k v d : dgood d -> dget k d = Some v -> dn v = true.
Proof. intros H E. apply dget_in in E. unfold dgood in H. rewrite Forall_forall in H. apply (H _ E). Qed.

Ltac lits := vm_compute; discriminate.
Ltac entry := split; [reflexivity|split; [cbn [fst]; lits|cbn [snd]]].

Lemma good_dappend k x d : plain_name k = true -> k <> k_stream -> dn x = true -> good d -> good (dappend k x d).
Proof.
  intros Hk Hs Hx Hd. unfold dappend. destruct (dget k d) as [o|] eqn:E; [|exact Hd]. destruct o; try exact Hd.
  apply good_dset; [|exact Hd].
  split; [exact Hk|]. split; [exact Hs|]. cbn [snd]. apply dn_seq. apply Forall_app. split; [|repeat constructor; exact Hx].
  apply dn_seq. eapply good_get; [exact Hd|exact Hs|exact E].
Qed.
Lemma good_res_set sub k v d : entry_ok (k, v) -> plain_name sub = true -> sub <> k_stream ->
  good d -> good (res_set sub k v d).
Proof.
  intros Hk Hp Hs Hd. unfold res_set. destruct (dget (lit "Resources") d) as [o|] eqn:E; [|exact Hd]. destruct o as [| |r| | | | | | |]; try exact Hd.
  apply good_dset; [|exact Hd]. entry. assert (Hr : dgood r) by (apply dn_dict; eapply (good_get (lit "Resources")); [exact Hd|lits|exact E]). apply dn_dict.
  apply dgood_dset; [|exact Hr]. split; [exact Hp|]. split; [exact Hs|]. cbn [snd]. apply dn_dict. apply dgood_dset; [exact Hk|].
  unfold res_of. rewrite E. destruct (dget sub r) as [o|] eqn:E2; [|constructor]. destruct o; try constructor.
  apply dn_dict. eapply dgood_get; [exact Hr|exact E2].
Qed.
Lemma good_res_default sub d : plain_name sub = true -> sub <> k_stream -> good d -> good (res_default sub d).
Proof.
  intros Hp Hs Hd. unfold res_default. destruct (dget (lit "Resources") d) as [o|] eqn:E; [|exact Hd]. destruct o as [| |r| | | | | | |]; try exact Hd.
  destruct (dmem sub r); [exact Hd|]. apply good_dset; [|exact Hd]. entry. apply dn_dict. apply dgood_dset.
  - split; [exact Hp|]. split; [exact Hs|reflexivity].
  - apply dn_dict. eapply (good_get (lit "Resources")); [exact Hd|lits|exact E].
Qed.

(** ** Texts a reader can read back *)
Definition clear_id (k : idk) : Prop :=
  match k with
  | ILabel l | IRef l => plain_text l = true
  | IUri u => plain_text u = true
  | IOutline _ t l => plain_text t = true /\ plain_text l = true
  end.
Definition clear_op (o : op) : Prop :=
  match o with
  | OpText t => Forall (fun kr => clear_id (fst kr)) (tx_ids t)
  | OpImage _ o _ _ _ _ => Forall (fun kv => fst kv = lit "__stream__" \/ plain_name (fst kv) = true /\ denote (snd kv) <> None) o /\
      forall k, In k [lit "Names"; lit "Kids"; lit "Title"; lit "First"] -> dget k o = None
  | _ => True
  end.

Lemma digits_plain l : forallb is_digit l = true -> plain_name l = true.
Proof.
  unfold plain_name. intros H. rewrite forallb_forall in *. intros c Hc. specialize (H c Hc).
  unfold is_digit in H. unfold is_regular, is_white, is_delim. cbn [existsb]. lia.
Qed.
Lemma plain_app a b : plain_name (a ++ b) = plain_name a && plain_name b.
Proof. apply forallb_app. Qed.
Definition clear_name (s : str) : Prop := plain_name s = true /\ s <> k_stream.
Lemma clear_lit_dec a n : plain_name a = true -> hd 0 a <> 95 -> a <> [] -> clear_name (a ++ dec n).
Proof.
  intros H H1 H2. split; [rewrite plain_app, H, digits_plain; [reflexivity|apply dec_digits]|].
  destruct a as [|c a]; [congruence|]. cbn [hd app] in *. intros [= E _]. apply H1. rewrite E. reflexivity.
Qed.

(** The part of a page that stays. *)
Definition page_stream : dict := [(lit "Filter", name "/FlateDecode"); (lit "__stream__", ODict [])].

Section Steps.
Variable load_ttf : str -> res ttf.
Variable num : Q -> obj.
Variable round3 : Q -> Q.
Variable tt_descr : ttf -> dict.
Variable tt_file : ttf -> bytes.
Hypothesis num_ok : forall q, dn (num q) = true.
Hypothesis ttf_ok : forall path t, load_ttf path = Ok t -> plain_name (tt_base t) = true /\ dgood (tt_descr t).

Definition fontgood (f : font) : Prop :=
  clear_name (f_ref f) /\ plain_name (f_base f) = true /\
  match f_kind f with FTT t => dgood (tt_descr t) | FStd _ => True end.
Definition fsgood (fs : fonts_st) : Prop :=
  forall fam m mode f, In (fam, m) (fs_fonts fs) -> In (mode, f) m -> fontgood f.

Lemma init_fsgood : fsgood init_fonts.
Proof.
  assert (H : forallb (fun fm => forallb (fun mf : str * font =>
    plain_name (f_ref (snd mf)) && negb (str_eqb (f_ref (snd mf)) k_stream) && plain_name (f_base (snd mf)) &&
    match f_kind (snd mf) with FStd _ => true | FTT _ => false end) (snd fm)) (fs_fonts init_fonts) = true) by (vm_compute; reflexivity).
  intros fam m mode f H1 H2. rewrite forallb_forall in H. specialize (H _ H1). cbn [snd] in H.
  rewrite forallb_forall in H. specialize (H _ H2). cbn [snd] in H. rewrite !andb_true_iff in H.
  destruct H as [[[A B] C] D]. split; [split; [exact A|]|split; [exact C|]].
  - intros E. rewrite E, str_eqb_refl in B. discriminate.
  - destruct (f_kind f); [exact Logic.I|discriminate].
Qed.
Lemma load_font_good path k fs fs' : fsgood fs -> load_font load_ttf path k fs = Ok fs' -> fsgood fs'.
Proof.
  intros H E. unfold load_font in E. destruct (load_ttf path) as [t|] eqn:El; [|discriminate]. cbn [bind] in E.
  injection E as <-. destruct (ttf_ok _ _ El) as [T1 T2].
  set (f0 := mkFont (font_ref (fs_index fs)) (tt_base t) (FTT t)).
  assert (G : fontgood f0).
  { split; [|split; [exact T1|exact T2]]. cbn [f0 f_ref]. unfold font_ref. apply clear_lit_dec; [reflexivity|discriminate|discriminate]. }
  intros fam m mode f H1 H2. cbn [fs_fonts] in H1. apply dset_cases in H1 as [H1|H1].
  - injection H1 as -> ->. apply dset_cases in H2 as [H2|H2]; [injection H2 as -> ->; exact G|].
    destruct (dget (fst k) (fs_fonts fs)) as [m0|] eqn:Eg.
    + eapply H; [apply dget_in; exact Eg|exact H2].
    + destruct H2 as [H2|[]]. injection H2 as <- <-. exact G.
  - eapply H; eassumption.
Qed.
Lemma pick_good k fs f : fsgood fs -> pick k fs = Ok f -> fontgood f.
Proof.
  intros H E. unfold pick in E. destruct (dget (fst k) (fs_fonts fs)) as [m|] eqn:E1; [|discriminate].
  apply dget_in in E1. destruct (dget (snd k) m) as [g|] eqn:E2.
  - injection E as <-. eapply H; [exact E1|apply dget_in; exact E2].
  - destruct (dget (lit "n") m) as [g|] eqn:E3; [|discriminate]. injection E as <-. eapply H; [exact E1|apply dget_in; exact E3].
Qed.
Lemma get_font_good k fs p f fs' p' : fsgood fs -> get_font load_ttf k fs p = Ok (f, fs', p') -> fontgood f /\ fsgood fs'.
Proof.
  intros H E. unfold get_font in E. destruct (is_standard (fst k)).
  - destruct (pick k fs) as [g|] eqn:Ep; [|discriminate]. cbn [bind] in E. injection E as <- <- <-. split; [eapply pick_good; eauto|exact H].
  - destruct (kget k (registered p)) as [path|]; [|discriminate]. destruct (existsb _ _).
    + destruct (pick k fs) as [g|] eqn:Ep; [|discriminate]. cbn [bind] in E. injection E as <- <- <-. split; [eapply pick_good; eauto|exact H].
    + destruct (load_font load_ttf path k fs) as [fs1|] eqn:El; [|discriminate]. cbn [bind] in E.
      destruct (pick k fs1) as [g|] eqn:Ep; [|discriminate]. cbn [bind] in E. injection E as <- <- <-.
      pose proof (load_font_good _ _ _ _ H El). split; [eapply pick_good; eauto|assumption].
Qed.

Lemma w_obj_dn i : dn (w_obj num i) = true.
Proof.
  destruct i as [g|ws]; [reflexivity|]. cbn [w_obj]. apply dn_seq. apply Forall_forall. intros o Ho.
  apply in_map_iff in Ho as (q & <- & _). apply num_ok.
Qed.
Lemma font_objs_good st f : fontgood f -> Forall good (font_objs num tt_descr tt_file st f).
Proof.
  intros (H1 & H2 & H3). unfold font_objs.
  assert (HB : dn (OBytes (lit "/" ++ f_base f)) = true) by (apply dn_name; exact H2).
  destruct (f_kind f) as [w|t].
  - constructor; [|constructor]. apply dgood_good. unfold std_font_obj.
    constructor; [entry; reflexivity|]. constructor; [entry; reflexivity|]. constructor; [entry; exact HB|].
    constructor; [entry; reflexivity|constructor].
  - constructor.
    { constructor; [right; entry; reflexivity|]. constructor; [now left|]. constructor; [right; entry; reflexivity|constructor]. }
    constructor.
    { apply dgood_good. apply dgood_dset; [entry; apply dn_oref|exact H3]. }
    constructor.
    { apply dgood_good. constructor; [entry; reflexivity|]. constructor; [entry; apply dn_oref|]. constructor; [entry; exact HB|].
      constructor; [entry; reflexivity|]. constructor; [entry; reflexivity|]. constructor; [entry; reflexivity|].
      constructor; [entry|constructor]. apply dn_seq. apply Forall_forall. intros o Ho. apply in_map_iff in Ho as (i & <- & _). apply w_obj_dn. }
    constructor.
    { constructor; [right; entry; reflexivity|]. constructor; [now left|constructor]. }
    constructor; [|constructor]. apply dgood_good. unfold type0_obj.
    constructor; [entry; reflexivity|]. constructor; [entry; reflexivity|]. constructor; [entry; exact HB|].
    constructor; [entry; reflexivity|]. constructor; [entry; apply dn_seq; repeat constructor; apply dn_oref|].
    constructor; [entry; apply dn_oref|constructor].
Qed.

(** ** The invariant *)

(** A stream is no node of a tree. *)
Definition inert (d : dict) : Prop := dget k_stream d <> None ->
  forall k, In k [lit "Names"; lit "Kids"; lit "Title"; lit "First"] -> dget k d = None.
Lemma inert_plain d : dget k_stream d = None -> inert d.
Proof. intros H H1. congruence. Qed.
Lemma dgood_inert d : dgood d -> inert d.
Proof.
  intros H. apply inert_plain. destruct (dget k_stream d) eqn:E; [|reflexivity]. exfalso. apply dget_in in E. unfold dgood in H.
  rewrite Forall_forall in H. destruct (H _ E) as (_ & K & _). now apply K.
Qed.
Ltac inerts := intros _ ?k ?Hk; cbn [In] in *; repeat match goal with H : _ \/ _ |- _ => destruct H as [<-|H] end; try contradiction; reflexivity.
Lemma font_objs_inert st f : fontgood f -> Forall inert (font_objs num tt_descr tt_file st f).
Proof.
  intros (H1 & H2 & H3). unfold font_objs. destruct (f_kind f) as [w|t].
  - constructor; [|constructor]. apply inert_plain. reflexivity.
  - constructor; [inerts|]. constructor; [apply dgood_inert; apply dgood_dset; [entry; apply dn_oref|exact H3]|].
    constructor; [apply inert_plain; reflexivity|]. constructor; [inerts|]. constructor; [|constructor]. apply inert_plain. reflexivity.
Qed.
Record oinv (s : pdf) : Prop := {
  o_good : Forall good (d_st s);
  o_page : forall pg, In pg (d_pages s) -> static s (pp_stream pg) page_stream /\
             exists d, sget (d_st s) (pp_id pg) = Some d /\ dget (lit "Contents") d = Some (oref (pp_stream pg)) /\
                       dget k_stream d = None;
  o_streams : NoDup (map pp_stream (d_pages s));
  o_fonts : fsgood (d_fs s);
  o_used : forall k v, In (k, v) (d_used s) -> clear_name (fst v);
  o_dests : forall l v, In (l, v) (d_dests s) -> plain_text l = true /\ dn v = true;
  o_imgs : forall n id, dget n (d_images s) = Some id -> (id <= List.length (d_st s))%nat /\ ~ In id (map pp_stream (d_pages s));
  o_inert : Forall inert (d_st s);
  o_outl : forall n t l, In (n, (t, l)) (preorder 1 (d_outl s)) -> plain_text t = true /\ plain_text l = true }.

Lemma good_upd (P : dict -> Prop) f l i : (forall d, P d -> P (f d)) -> Forall P l -> Forall P (upd_nth i f l).
Proof.
  intros Hf H. revert i. induction H as [|x l Hx H IH]; intros [|i]; cbn [upd_nth]; constructor; auto.
Qed.
Lemma good_supd f st id : (forall d, good d -> good (f d)) -> Forall good st -> Forall good (supd st id f).
Proof. intros Hf H. destruct id; [exact H|]. cbn [supd]. now apply good_upd. Qed.

Definition kept (k : str) : Prop := k = lit "Contents" \/ k = k_stream.
Lemma kept_other k k2 : kept k -> k2 <> lit "Contents" -> k2 <> k_stream -> k <> k2.
Proof. intros [->| ->]; congruence. Qed.
Lemma oinv_st s st : oinv s -> Forall good st -> Forall inert st -> (List.length (d_st s) <= List.length st)%nat ->
  (forall id d, sget (d_st s) id = Some d -> ~ In id (map pp_id (d_pages s)) -> sget st id = Some d) ->
  (forall pg d, In pg (d_pages s) -> sget (d_st s) (pp_id pg) = Some d -> exists d', sget st (pp_id pg) = Some d' /\
     forall k, kept k -> dget k d' = dget k d) ->
  oinv (with_st s st).
Proof.
  intros [A B C D E F HI IN G] H1 HN HL H2 H3. constructor; cbn [with_st d_st d_pages d_fs d_used d_dests d_images d_outl]; auto.
  2:{ intros n id Hn. destruct (HI n id Hn). split; [lia|assumption]. }
  intros pg Hpg. destruct (B pg Hpg) as ((S1 & S2 & S3) & d & D1 & D2 & D5). split.
  - split; [|split; [exact S2|exact S3]]. cbn [with_st d_st]. now apply H2.
  - destruct (H3 pg d Hpg D1) as (d' & D3 & D4). exists d'. split; [exact D3|]. rewrite !D4; [auto|now right|now left].
Qed.
Lemma oinv_app s ds : oinv s -> Forall good ds -> Forall inert ds -> oinv (with_st s (d_st s ++ ds)).
Proof.
  intros H Hds Hin. apply oinv_st; [exact H|apply Forall_app; split; [apply H|exact Hds]|apply Forall_app; split; [apply H|exact Hin]|rewrite app_length; lia| |].
  - intros id d Hd _. now apply sget_app_old.
  - intros pg d Hpg Hd. exists d. split; [now apply sget_app_old|reflexivity].
Qed.
Lemma inert_supd s pg f : oinv s -> In pg (d_pages s) -> (forall d k, kept k -> dget k (f d) = dget k d) ->
  Forall inert (supd (d_st s) (pp_id pg) f).
Proof.
  intros H Hpg Hc. destruct (o_page _ H _ Hpg) as (_ & d & D1 & _ & D2). pose proof (o_inert _ H) as HI.
  destruct (pp_id pg) as [|i]; [discriminate|]. cbn [supd sget] in *. revert i D1. induction HI as [|x l Hx HI IH]; intros [|i] D1; cbn [upd_nth nth_error] in *; try discriminate.
  - injection D1 as ->. constructor; [|exact HI]. apply inert_plain. rewrite Hc; [exact D2|now right].
  - constructor; [exact Hx|now apply IH].
Qed.
Lemma oinv_upd s pg f : oinv s -> In pg (d_pages s) -> (forall d, good d -> good (f d)) ->
  (forall d k, kept k -> dget k (f d) = dget k d) -> oinv (with_st s (supd (d_st s) (pp_id pg) f)).
Proof.
  intros H Hpg Hf Hc. apply oinv_st; [exact H|apply good_supd; [exact Hf|apply H]|now apply inert_supd|rewrite supd_length; lia| |].
  - intros id d Hd Hn. rewrite supd_other; [exact Hd|]. intros E. apply Hn. rewrite <- E. now apply in_map.
  - intros pg' d Hpg' Hd. destruct (Nat.eq_dec (pp_id pg) (pp_id pg')) as [E|E].
    + exists (f d). rewrite E. split; [now apply supd_same|]. intros k Hk. now apply Hc.
    + exists d. rewrite supd_other by exact E. auto.
Qed.
Lemma oinv_pages s i f cur : oinv s -> (forall pg, pp_id (f pg) = pp_id pg /\ pp_stream (f pg) = pp_stream pg) ->
  oinv (with_pages s (upd_nth i f (d_pages s)) cur).
Proof.
  intros [A B C D E F HI IN G] Hf.
  assert (Hid : forall (g : ppage -> nat), (forall pg, g (f pg) = g pg) -> forall l i, map g (upd_nth i f l) = map g l).
  { intros g Hg l. induction l as [|x l IH]; intros [|j]; cbn; try reflexivity; [now rewrite Hg|now rewrite IH]. }
  constructor; cbn [with_pages d_st d_pages d_fs d_used d_dests d_images d_outl]; auto.
  3:{ rewrite Hid; [exact HI|apply Hf]. }
  - intros pg Hpg. assert (exists pg0, In pg0 (d_pages s) /\ pp_id pg = pp_id pg0 /\ pp_stream pg = pp_stream pg0) as (pg0 & P1 & P2 & P3).
    { revert i Hpg. generalize (d_pages s). induction l as [|x l IH]; intros [|j]; cbn [upd_nth In]; try tauto.
      - intros [<-|H]; [exists x; destruct (Hf x); auto|exists pg; auto].
      - intros [<-|H]; [exists x; auto|]. destruct (IH _ H) as (pg0 & ? & ?). exists pg0. auto. }
    rewrite P2, P3. destruct (B _ P1) as ((S1 & S2 & S3) & d & D1 & D2 & D3). split; [|eauto].
    split; [exact S1|]. split; [exact S2|]. cbn [with_pages d_pages]. rewrite Hid; [exact S3|apply Hf].
  - rewrite Hid; [exact C|apply Hf].
Qed.
Lemma oinv_cur s cur : oinv s -> oinv (with_pages s (d_pages s) cur).
Proof. intros [A B C D E F HI IN G]. constructor; auto. Qed.
Lemma oinv_fonts s fs p : oinv s -> fsgood fs -> oinv (with_fonts s fs p).
Proof. intros [A B C D E F HI IN G] H. constructor; auto. Qed.
Lemma cur_page_in s pg : cur_page s = Ok pg -> In pg (d_pages s).
Proof.
  unfold cur_page. destruct (d_cur s) as [i|]; [|discriminate]. destruct (nth_error (d_pages s) i) eqn:E; [|discriminate].
  intros [= <-]. eapply nth_error_In, E.
Qed.

Lemma kset_cases {V} k (v : V) (d : list (fkey * V)) x : In x (kset k v d) -> x = (k, v) \/ In x d \/ fkey_eqb k (fst x) = true /\ snd x = v.
Proof.
  induction d as [|[k' v'] d IH]; cbn [kset]; [intros [<-|[]]; now left|].
  destruct (fkey_eqb k k') eqn:E.
  - intros [<-|H]; [right; right; cbn; auto|right; left; now right].
  - intros [<-|H]; [right; left; now left|]. destruct (IH H) as [->|[H1|H1]]; [now left|right; left; now right|right; now right].
Qed.
Lemma add_or_get_font_oinv k s v s' : oinv s -> add_or_get_font load_ttf num tt_descr tt_file k s = Ok (v, s') ->
  oinv s' /\ clear_name (fst v).
Proof.
  intros H E. unfold add_or_get_font in E. destruct (kget k (d_used s)) as [u|] eqn:Ek.
  - injection E as <- <-. split; [exact H|]. assert (exists k0, In (k0, u) (d_used s)) as [k0 Hin].
    { revert Ek. clear. induction (d_used s) as [|[k' v'] l IH]; cbn [kget]; [discriminate|].
      destruct (fkey_eqb k k'); [intros [= ->]; exists k'; now left|]. intros H. destruct (IH H) as [k0 H0]. exists k0. now right. }
    eapply (o_used _ H), Hin.
  - destruct (get_font load_ttf k (d_fs s) (d_proc s)) as [[[f fs] p]|] eqn:Eg; [|discriminate]. cbn [bind] in E.
    injection E as <- <-. destruct (get_font_good _ _ _ _ _ _ (o_fonts _ H) Eg) as [G1 G2]. split; [|apply G1].
    pose proof (oinv_app _ _ (oinv_fonts s fs p H G2) (font_objs_good (d_st s) f G1) (font_objs_inert (d_st s) f G1)) as O1.
    change (d_st (with_fonts s fs p)) with (d_st s) in O1.
    destruct O1 as [A B C D E F HI IN G]. constructor; auto.
    intros k0 v0 Hin. cbn [with_used d_used] in Hin. apply kset_cases in Hin as [Hin|[Hin|[_ Hin]]].
    + injection Hin as -> ->. apply G1.
    + eapply (o_used _ H), Hin.
    + cbn [snd] in Hin. rewrite Hin. apply G1.
Qed.

Ltac kother := rewrite dget_dset_other by (apply kept_other; [assumption|lits|lits]).
Lemma res_set_contents sub k v d k0 : kept k0 -> dget k0 (res_set sub k v d) = dget k0 d.
Proof. intros Hk. unfold res_set. destruct (dget (lit "Resources") d) as [[]|]; try reflexivity. now kother. Qed.
Lemma res_default_contents sub d k0 : kept k0 -> dget k0 (res_default sub d) = dget k0 d.
Proof.
  intros Hk.
  unfold res_default. destruct (dget (lit "Resources") d) as [o|]; try reflexivity. destruct o; try reflexivity.
  destruct (dmem sub d0); [reflexivity|]. now kother.
Qed.
Lemma used_font_oinv k s s' : oinv s -> used_font load_ttf num tt_descr tt_file k s = Ok s' -> oinv s'.
Proof.
  intros H E. unfold used_font in E. destruct (add_or_get_font _ _ _ _ k s) as [[v s1]|] eqn:Ea; [|discriminate].
  cbn [bind] in E. destruct (add_or_get_font_oinv _ _ _ _ H Ea) as [H1 Hv].
  destruct (cur_page s1) as [pg|] eqn:Ec; [|discriminate]. cbn [bind] in E. injection E as <-.
  apply oinv_upd; [exact H1|eapply cur_page_in, Ec| |].
  - intros d Hd. apply good_res_set; [split; [apply Hv|split; [apply Hv|apply dn_oref]]|reflexivity|lits|].
    apply good_res_default; [reflexivity|lits|exact Hd].
  - intros d k0 Hk. now rewrite res_set_contents, res_default_contents.
Qed.
Lemma used_fonts_oinv ks : forall s s', oinv s -> used_fonts load_ttf num tt_descr tt_file ks s = Ok s' -> oinv s'.
Proof.
  induction ks as [|k ks IH]; intros s s' H E; cbn [used_fonts] in E; [now injection E as <-|].
  destruct (used_font _ _ _ _ k s) as [s1|] eqn:E1; [|discriminate]. cbn [bind] in E. eapply IH; [|exact E]. eapply used_font_oinv; eauto.
Qed.
Lemma layout_oinv styles : forall s l s', oinv s -> layout load_ttf styles s = Ok (l, s') -> oinv s'.
Proof.
  induction styles as [|[[fam b] i] styles IH]; intros s l s' H E; cbn [layout] in E; [now injection E as _ <-|].
  destruct (state_mode (d_fs s) fam b i) as [mode|]; [|discriminate]. cbn [bind] in E.
  destruct (get_font load_ttf (fam, mode) (d_fs s) (d_proc s)) as [[[f fs] p]|] eqn:Eg; [|discriminate]. cbn [bind] in E.
  destruct (layout load_ttf styles (with_fonts s fs p)) as [[l1 s1]|] eqn:El; [|discriminate]. cbn [bind] in E.
  injection E as _ <-. eapply IH; [|exact El]. apply oinv_fonts; [exact H|]. eapply get_font_good; [apply H|exact Eg].
Qed.
Lemma add_part_oinv pt s s' : oinv s -> add_part pt s = Ok s' -> oinv s'.
Proof.
  intros H E. unfold add_part in E. destruct (d_cur s) as [i|] eqn:Ec; [|discriminate].
  destruct (nth_error (d_pages s) i); [|discriminate]. injection E as <-. apply oinv_pages; [exact H|]. intros pg. split; reflexivity.
Qed.

Definition extra_ok (e : dict) : Prop := Forall entry_ok e.
Lemma fold_extra e : forall a, dgood e -> dgood a -> dgood (fold_left (fun a kv => dset (fst kv) (snd kv) a) e a).
Proof.
  induction e as [|[k v] e IH]; intros a He Ha; cbn [fold_left]; [exact Ha|]. inversion He; subst.
  apply IH; [assumption|]. now apply dgood_dset.
Qed.
Lemma page_annot_oinv e r s s' : oinv s -> dgood e -> dn r = true -> page_annot e r s = Ok s' -> oinv s'.
Proof.
  intros H He Hr E. unfold page_annot in E. destruct (cur_page s) as [pg|] eqn:Ec; [|discriminate]. cbn [bind] in E.
  injection E as <-. apply oinv_upd; [exact H|eapply cur_page_in, Ec| |].
  - intros d Hd. unfold add_annot. apply good_dappend; [reflexivity|lits| |].
    + apply dn_dict. apply dgood_dset; [entry; exact Hr|]. apply fold_extra; [exact He|].
      constructor; [entry; reflexivity|constructor; [entry; reflexivity|constructor]].
    + destruct (dmem (lit "Annots") d); [exact Hd|]. apply good_dset; [entry; reflexivity|exact Hd].
  - intros d k0 Hk. unfold add_annot, dappend. set (a := ODict _). clearbody a.
    destruct (dmem (lit "Annots") d).
    + destruct (dget (lit "Annots") d) as [o|]; [|reflexivity]. destruct o; try reflexivity. now kother.
    + rewrite dget_dset_same. now do 2 kother.
Qed.
Lemma each_rect_oinv f rs : (forall r s s', oinv s -> f r s = Ok s' -> oinv s') ->
  forall s s', oinv s -> each_rect f rs s = Ok s' -> oinv s'.
Proof.
  intros Hf. induction rs as [|r rs IH]; intros s s' H E; cbn [each_rect] in E; [now injection E as <-|].
  destruct (f r s) as [s1|] eqn:E1; [|discriminate]. cbn [bind] in E. eapply IH; [|exact E]. eapply Hf; eauto.
Qed.
Lemma rect_dn x y r : dn (rect_obj num round3 x y r) = true.
Proof. destruct r as [[[a b] c] d]. cbn [rect_obj]. apply dn_seq. repeat constructor; apply num_ok. Qed.
Lemma text_id_oinv x y k rs s s' : oinv s -> clear_id k -> text_id num round3 x y k rs s = Ok s' -> oinv s'.
Proof.
  intros H Hk E. unfold text_id in E. destruct rs as [|d rs]; [now injection E as <-|]. destruct k as [l|l|u|level t l].
  - destruct (cur_page s) as [pg|] eqn:Ec; [|discriminate]. cbn [bind] in E. injection E as <-.
    destruct H as [A B C D E F HI IN G]. constructor; auto. intros l0 v Hin. cbn [with_dests d_dests] in Hin.
    apply dset_cases in Hin as [Hin|Hin]; [|eauto]. injection Hin as -> ->. split; [exact Hk|].
    destruct d as [[[a b] c] d]. cbn [dest_obj]. apply dn_seq. constructor; [apply dn_oref|]. constructor; [reflexivity|].
    repeat constructor; apply num_ok.
  - eapply each_rect_oinv; [|exact H|exact E]. intros r s1 s2 H1. apply page_annot_oinv; [exact H1| |apply rect_dn].
    constructor; [entry; now apply dn_str|constructor].
  - destruct (get_uri u s) as [id s1] eqn:Eu. eapply each_rect_oinv; [| |exact E].
    + intros r s2 s3 H1. apply page_annot_oinv; [exact H1| |apply rect_dn].
      constructor; [entry; apply dn_oref|constructor; [entry; reflexivity|constructor]].
    + unfold get_uri in Eu. destruct (dget u (d_uris s)); injection Eu as <- <-; [exact H|].
      assert (Hg : Forall good [[(lit "Type", name "/Action"); (lit "S", name "/URI"); (lit "URI", OStr u)]]).
      { constructor; [apply dgood_good|constructor]. constructor; [entry; reflexivity|]. constructor; [entry; reflexivity|].
        constructor; [entry; now apply dn_str|constructor]. }
      assert (Hin : Forall inert [[(lit "Type", name "/Action"); (lit "S", name "/URI"); (lit "URI", OStr u)]])
        by (constructor; [apply inert_plain; reflexivity|constructor]).
      destruct (oinv_app _ _ H Hg Hin) as [A B C D E1 F HI IN G]. constructor; auto.
  - destruct (add_outline level t l (d_outl s)) as [o|] eqn:Eo; [|discriminate]. cbn [bind] in E. injection E as <-.
    destruct (add_outline_spec level t l (d_outl s)) as [(E & _)|(f & E & _ & E2)]; [congruence|].
    rewrite E in Eo. injection Eo as <-. destruct H as [A B C D E1 F HI IN G]. constructor; auto.
    intros n t0 l0 Hin. cbn [with_outl d_outl] in Hin. rewrite E2 in Hin. apply in_app_iff in Hin as [Hin|[Hin|[]]]; [eauto|].
    injection Hin as _ <- <-. exact Hk.
Qed.
Lemma text_ids_oinv x y ids : Forall (fun kr => clear_id (fst kr)) ids -> forall s s', oinv s ->
  text_ids num round3 x y ids s = Ok s' -> oinv s'.
Proof.
  induction 1 as [|[k rs] ids Hk Hids IH]; intros s s' H E; cbn [text_ids] in E; [now injection E as <-|].
  destruct (text_id num round3 x y k rs s) as [s1|] eqn:E1; [|discriminate]. cbn [bind] in E.
  eapply IH; [|exact E]. eapply text_id_oinv; [exact H|exact Hk|exact E1].
Qed.
Lemma add_text_oinv t s s' : oinv s -> Forall (fun kr => clear_id (fst kr)) (tx_ids t) ->
  add_text load_ttf num round3 tt_descr tt_file t s = Ok s' -> oinv s'.
Proof.
  intros H Hc E. unfold add_text in E. destruct (layout load_ttf (tx_styles t) s) as [[l s1]|] eqn:E1; [|discriminate].
  cbn [bind] in E. destruct (add_part (PText (map snd l) (tx_stream t)) s1) as [s2|] eqn:E2; [|discriminate]. cbn [bind] in E.
  destruct (used_fonts load_ttf num tt_descr tt_file (map fst l) s2) as [s3|] eqn:E3; [|discriminate]. cbn [bind] in E.
  eapply text_ids_oinv; [exact Hc| |exact E]. eapply used_fonts_oinv; [|exact E3]. eapply add_part_oinv; [|exact E2].
  eapply layout_oinv; eauto.
Qed.
Lemma add_image_oinv n o w h x y s s' : oinv s -> good o -> inert o -> add_image n o w h x y s = Ok s' -> oinv s'.
Proof.
  intros H Ho Hi E. unfold add_image in E. destruct (get_image n o s) as [id s1] eqn:Eg.
  assert (H1 : oinv s1).
  { unfold get_image in Eg. destruct (dget n (d_images s)); injection Eg as <- <-; [exact H|].
    destruct (oinv_app _ _ H (Forall_cons _ Ho (Forall_nil _)) (Forall_cons _ Hi (Forall_nil _))) as [A B C D E1 F HI IN G]. constructor; auto.
    intros n0 id0. cbn [with_images with_st d_images d_st d_pages] in *. destruct (str_eq_dec n0 n) as [->|Hn].
    - rewrite dget_dset_same. intros [= <-]. split; [rewrite app_length; cbn; lia|]. intros Hin. apply in_map_iff in Hin as (pg & Hid & Hpg).
      destruct (o_page _ H pg Hpg) as ((T1 & _) & _). apply sget_some_lt in T1. lia.
    - rewrite dget_dset_other by exact Hn. apply HI. }
  clear H Eg. unfold page_image in E. destruct (d_cur s1) as [i|]; [|discriminate].
  destruct (nth_error (d_pages s1) i) as [pg|] eqn:Ei; [|discriminate]. apply nth_error_In in Ei.
  set (st1 := supd (d_st s1) (pp_id pg) (res_default (lit "XObject"))) in *.
  assert (H2 : oinv (with_st s1 st1)).
  { apply oinv_upd; [exact H1|exact Ei| |].
    - intros d Hd. apply good_res_default; [reflexivity|lits|exact Hd].
    - intros d k0 Hk. now apply res_default_contents. }
  destruct (sget st1 (pp_id pg)) as [d|]; [|discriminate].
  destruct (xget id (pp_xobjs pg)) as [nm|].
  - injection E as <-. apply (oinv_pages (with_st s1 st1)); [exact H2|]. intros pg0. split; reflexivity.
  - injection E as <-.
    assert (H3 : oinv (with_st (with_st s1 st1) (supd (d_st (with_st s1 st1)) (pp_id pg)
        (res_set (lit "XObject") (lit "Im" ++ dec (N.of_nat (List.length (res_of (lit "XObject") d)))) (oref id))))).
    { apply oinv_upd; [exact H2|exact Ei| |].
      - intros d0 Hd. apply good_res_set; [|reflexivity|lits|exact Hd].
        destruct (clear_lit_dec (lit "Im") (N.of_nat (List.length (res_of (lit "XObject") d)))) as [C1 C2]; [reflexivity|discriminate|discriminate|].
        split; [exact C1|]. split; [exact C2|apply dn_oref].
      - intros d0 k0 Hk. now apply res_set_contents. }
    match goal with |- oinv (with_pages (with_st s1 ?st2) _ _) => apply (oinv_pages (with_st s1 st2)) end; [exact H3|]. intros pg0. split; reflexivity.
Qed.
Lemma add_page_oinv w h s s' : base_inv s -> oinv s -> add_page w h s = Ok s' -> oinv s'.
Proof.
  intros HB H E. unfold add_page in E. injection E as <-. set (n := List.length (d_st s)).
  set (pgd := [(lit "Type", name "/Page"); (lit "Contents", oref (S n)); (lit "Resources", ODict [])]).
  assert (Hg : Forall good ([page_stream] ++ [pgd])).
  { constructor; [constructor; [right; entry; reflexivity|constructor; [now left|constructor]]|]. constructor; [|constructor]. apply dgood_good. constructor; [entry; reflexivity|].
    constructor; [entry; apply dn_oref|constructor; [entry; reflexivity|constructor]]. }
  assert (Hnd : Forall inert ([page_stream] ++ [pgd])).
  { constructor; [inerts|]. constructor; [|constructor]. apply inert_plain. reflexivity. }
  pose proof (oinv_app _ _ H Hg Hnd) as O. change ([page_stream] ++ [pgd]) with ([page_stream] ++ [pgd]) in O.
  assert (S1 : sget (d_st s ++ [page_stream] ++ [pgd]) (S n) = Some page_stream).
  { cbn [sget]. rewrite nth_error_app2 by (unfold n; lia). unfold n. now rewrite Nat.sub_diag. }
  assert (S2 : sget (d_st s ++ [page_stream] ++ [pgd]) (S (S n)) = Some pgd).
  { cbn [sget]. rewrite nth_error_app2 by (unfold n; lia). replace (S n - List.length (d_st s))%nat with 1%nat by (unfold n; lia). reflexivity. }
  assert (Hlt : forall pg, In pg (d_pages s) -> (pp_id pg <= n)%nat /\ (pp_stream pg <= n)%nat).
  { intros pg Hpg. destruct (o_page _ H pg Hpg) as ((T1 & _) & d & D1 & _ & _). apply sget_some_lt in T1, D1. unfold n. lia. }
  assert (Hn : (1 <= n)%nat) by (pose proof (sget_some_lt _ _ _ (bi_root _ HB)); unfold n; lia).
  destruct O as [A B C D E F HI IN G]. cbn [with_st d_st d_pages d_fs d_used d_dests d_outl] in *.
  constructor; cbn [with_pages with_st d_st d_pages d_fs d_used d_dests d_images d_outl]; auto.
  3:{ intros nm id Hi. destruct (HI nm id Hi) as [L1 L2]. split; [exact L1|]. rewrite map_app. cbn [map pp_stream]. intros Hin.
      apply in_app_iff in Hin as [Hin|[Hin|[]]]; [auto|]. destruct (o_imgs _ H nm id Hi). unfold n in Hin. lia. }
  - intros pg Hpg. apply in_app_iff in Hpg as [Hpg|[<-|[]]].
    + destruct (B pg Hpg) as ((T1 & T2 & T3) & d & D1 & D2 & D3). cbn [with_st d_st d_pages] in T1, T3. split; [|eauto].
      split; [exact T1|]. split; [exact T2|]. cbn [with_pages d_pages]. rewrite map_app. cbn [map pp_id]. intros Hin.
      apply in_app_iff in Hin as [Hin|[Hin|[]]]; [auto|]. destruct (Hlt pg Hpg). lia.
    + cbn [pp_id pp_stream]. split; [|exists pgd; split; [exact S2|split; reflexivity]].
      split; [exact S1|]. split; [lia|]. cbn [with_pages d_pages]. rewrite map_app. cbn [map pp_id]. intros Hin.
      apply in_app_iff in Hin as [Hin|[Hin|[]]]; [|lia]. apply in_map_iff in Hin as (pg & Hid & Hpg). destruct (Hlt pg Hpg). lia.
  - rewrite map_app. cbn [map pp_stream]. apply nodup_snoc; [exact C|]. intros Hin. apply in_map_iff in Hin as (pg & Hid & Hpg).
    destruct (Hlt pg Hpg). lia.
Qed.

Lemma step_oinv o s s' : base_inv s -> oinv s -> clear_op o -> step load_ttf num round3 tt_descr tt_file o s = Ok s' -> oinv s'.
Proof.
  intros HB H Hc E. destruct o as [w h|i|t|n o w h x y|path k]; cbn [step] in E.
  - eapply add_page_oinv; eauto.
  - injection E as <-. now apply oinv_cur.
  - eapply add_text_oinv; eauto.
  - destruct Hc as [Hc Hk0]. eapply add_image_oinv; [exact H| |intros _; exact Hk0|exact E]. eapply Forall_impl; [|exact Hc]. intros [k v] [Hk|[H1 H2]]; [now left|].
    cbn [fst snd] in *. destruct (str_eq_dec k k_stream) as [->|Hk]; [now left|right]. split; [exact H1|]. split; [exact Hk|].
    cbn [snd]. unfold dn. destruct (denote v); [reflexivity|congruence].
  - destruct (load_font load_ttf path k (d_fs s)) as [fs|] eqn:El; [|discriminate]. cbn [bind] in E. injection E as <-.
    apply oinv_fonts; [exact H|]. eapply load_font_good; [apply H|exact El].
Qed.
End Steps.

(** ** Writing *)
Lemma good_sset k v st id : entry_ok (k, v) -> Forall good st -> Forall good (sset st id k v).
Proof. intros Hk H. unfold sset. apply good_supd; [|exact H]. intros d. now apply good_dset. Qed.
Lemma good_dincr k d : plain_name k = true -> k <> k_stream -> good d -> good (dincr k d).
Proof.
  intros H1 H2 H. unfold dincr. destruct (dget k d) as [o|]; [|exact H]. destruct o; try exact H.
  apply good_dset; [split; [exact H1|split; [exact H2|reflexivity]]|exact H].
Qed.
Definition item_good (it : page_item) : Prop := match snd it with Some (w, h) => dn w = true /\ dn h = true | None => True end.
Lemma pages_loop_good l : forall st count nodes st' c' n', Forall item_good l -> Forall good st ->
  pages_loop st count nodes l = (st', c', n') -> Forall good st'.
Proof.
  induction l as [|[p wh] l IH]; intros st count nodes st' c' n' Hl H E; cbn [pages_loop] in E; [now injection E as <- _ _|].
  inversion Hl as [|? ? Hi Hl']; subst.
  assert (H1 : Forall good (match wh with Some (w, h) => sset st p (lit "MediaBox") (media_box w h) | None => st end)).
  { destruct wh as [[w h]|]; [|exact H]. destruct Hi as [W1 W2]. apply good_sset; [|exact H]. entry. apply dn_seq. repeat constructor; assumption. }
  destruct (count mod 6 =? 0)%nat; cbn [sadd] in E; (eapply IH; [exact Hl'| |exact E]);
    (apply good_supd; [intros d; apply good_dincr; [reflexivity|lits]|]);
    (apply good_supd; [intros d; apply good_dappend; [reflexivity|lits|apply dn_oref]|]);
    (apply good_sset; [entry; apply dn_oref|]); [|exact H1].
  apply Forall_app. split; [exact H1|]. constructor; [apply dgood_good|constructor]. constructor; [entry; reflexivity|].
  constructor; [entry; reflexivity|constructor; [entry; reflexivity|constructor]].
Qed.
Lemma build_pages_good fuel : forall st root l st', Forall item_good l -> Forall good st ->
  build_pages fuel st root l = Ok st' -> Forall good st'.
Proof.
  induction fuel as [|fuel IH]; intros st root l st' Hl H E; cbn [build_pages] in E; [discriminate|].
  destruct (pages_loop st 0 [] l) as [[st1 count] nodes] eqn:El. pose proof (pages_loop_good _ _ _ _ _ _ _ Hl H El) as H1.
  destruct (count =? 1)%nat.
  - injection E as <-. apply good_sset; [entry; apply dn_oref|exact H1].
  - eapply IH; [|exact H1|exact E]. apply Forall_forall. intros it Hit. apply in_map_iff in Hit as (n & <- & _). exact Logic.I.
Qed.

(** Destinations: the node that is being built has no last name yet. *)
Definition dentry_good (e : dentry) : Prop :=
  match e with
  | DLeaf k v => plain_text k = true /\ dn v = true
  | DNode _ lo hi => plain_text lo = true /\ plain_text hi = true
  end.
Definition opened (d : dict) : Prop := exists lo key l, d = [(lit "Limits", OSeq [OStr lo; ONone]); (key, OSeq l)] /\
  plain_text lo = true /\ (key = lit "Names" \/ key = lit "Kids") /\ Forall (fun o => dn o = true) l.
Definition goods (st : store) : Prop := forall id d, sget st id = Some d -> good d.
Definition but (cur : nat) (st : store) : Prop := forall id d, sget st id = Some d -> good d \/ id = cur /\ opened d.
Lemma goods_iff st : goods st <-> Forall good st.
Proof.
  rewrite Forall_forall. split.
  - intros H d Hd. apply In_nth_error in Hd as [i Hi]. apply (H (S i)). exact Hi.
  - intros H [|i] d Hd; [discriminate|]. apply H. eapply nth_error_In. exact Hd.
Qed.
Lemma sget_supd st id f i d : sget (supd st id f) i = Some d -> exists d0, sget st i = Some d0 /\ (i = id /\ d = f d0 \/ i <> id /\ d = d0).
Proof.
  intros H. destruct (Nat.eq_dec id i) as [->|Hne].
  - destruct (sget st i) as [d0|] eqn:E; [|rewrite supd_none in H by exact E; discriminate].
    rewrite (supd_same _ _ f _ E) in H. injection H as <-. eauto.
  - rewrite supd_other in H by exact Hne. exists d. split; [exact H|]. right. split; [congruence|reflexivity].
Qed.
Lemma items_dn e : dentry_good e -> Forall (fun o => dn o = true) (items_of e).
Proof.
  destruct e as [k v|id lo hi]; cbn [items_of dentry_good]; intros [H1 H2].
  - constructor; [now apply dn_str|]. constructor; [exact H2|constructor].
  - constructor; [apply dn_oref|constructor].
Qed.
Lemma dappends_good k xs : plain_name k = true -> k <> k_stream -> Forall (fun o => dn o = true) xs ->
  forall d, good d -> good (dappends k xs d).
Proof.
  intros H1 H2. unfold dappends. induction 1 as [|x xs Hx Hxs IH]; intros d Hd; cbn [fold_left]; [exact Hd|].
  apply IH. now apply good_dappend.
Qed.
Lemma dappends_opened key xs lo l : (key = lit "Names" \/ key = lit "Kids") ->
  dappends key xs [(lit "Limits", OSeq [OStr lo; ONone]); (key, OSeq l)] =
  [(lit "Limits", OSeq [OStr lo; ONone]); (key, OSeq (l ++ xs))].
Proof.
  intros Hk. unfold dappends. revert l. induction xs as [|x xs IH]; intros l; cbn [fold_left]; [now rewrite app_nil_r|].
  replace (dappend key x [(lit "Limits", OSeq [OStr lo; ONone]); (key, OSeq l)])
    with [(lit "Limits", OSeq [OStr lo; ONone]); (key, OSeq (l ++ [x]))].
  2:{ destruct Hk as [->| ->]; reflexivity. }
  rewrite IH, <- app_assoc. reflexivity.
Qed.
Lemma dappends_other key key' xs lo l : (key = lit "Names" \/ key = lit "Kids") -> (key' = lit "Names" \/ key' = lit "Kids") -> key' <> key ->
  dappends key' xs [(lit "Limits", OSeq [OStr lo; ONone]); (key, OSeq l)] =
  [(lit "Limits", OSeq [OStr lo; ONone]); (key, OSeq l)].
Proof.
  intros Hk Hk' Hne. unfold dappends. induction xs as [|x xs IH]; cbn [fold_left]; [reflexivity|].
  replace (dappend key' x [(lit "Limits", OSeq [OStr lo; ONone]); (key, OSeq l)])
    with [(lit "Limits", OSeq [OStr lo; ONone]); (key, OSeq l)]; [exact IH|].
  destruct Hk as [->| ->], Hk' as [->| ->]; try congruence; reflexivity.
Qed.
Lemma node_key_cases first : node_key first = lit "Names" \/ node_key first = lit "Kids".
Proof. destruct first; auto. Qed.
Lemma append_but first cur st e : dentry_good e -> but cur st ->
  but cur (supd st cur (dappends (node_key first) (items_of e))).
Proof.
  intros He H id d Hd. apply sget_supd in Hd as (d0 & D0 & [[-> ->]|[Hne ->]]); [|eauto].
  destruct (H _ _ D0) as [G|[_ (lo & key & l & -> & P1 & P2 & P3)]].
  - left. apply dappends_good; [destruct first; reflexivity|destruct first; lits|now apply items_dn|exact G].
  - right. split; [reflexivity|]. destruct (str_eq_dec (node_key first) key) as [E|E].
    + rewrite E, dappends_opened by exact P2. exists lo, key, (l ++ items_of e). split; [reflexivity|]. split; [exact P1|].
      split; [exact P2|]. apply Forall_app. split; [exact P3|now apply items_dn].
    + rewrite dappends_other; [|exact P2|apply node_key_cases|exact E]. exists lo, key, l. auto.
Qed.
Lemma set_limit_good hi d : plain_text hi = true -> good d \/ opened d -> good (set_limit hi d).
Proof.
  intros Hh [H|(lo & key & l & -> & P1 & P2 & P3)].
  - unfold set_limit. destruct (dget (lit "Limits") d) as [o|] eqn:E; [|exact H]. destruct o as [| | |l| | | | | |]; try exact H.
    destruct l as [|a [|b [|c l]]]; try exact H. apply good_dset; [|exact H]. entry. apply dn_seq.
    assert (HS : dn (OSeq [a; b]) = true) by (eapply (good_get (lit "Limits")); [exact H|lits|exact E]). apply dn_seq in HS.
    inversion HS; subst. constructor; [assumption|]. constructor; [now apply dn_str|constructor].
  - apply dgood_good. replace (set_limit hi _) with [(lit "Limits", OSeq [OStr lo; OStr hi]); (key, OSeq l)] by reflexivity.
    constructor; [entry; apply dn_seq; constructor; [now apply dn_str|constructor; [now apply dn_str|constructor]]|].
    constructor; [|constructor]. destruct P2 as [->| ->]; (entry; now apply dn_seq).
Qed.
Lemma limit_goods cur hi st : plain_text hi = true -> but cur st -> goods (supd st cur (set_limit hi)).
Proof.
  intros Hh H id d Hd. apply sget_supd in Hd as (d0 & D0 & [[-> ->]|[Hne ->]]).
  - apply set_limit_good; [exact Hh|]. destruct (H _ _ D0) as [G|[_ G]]; auto.
  - destruct (H _ _ D0) as [G|[G _]]; [exact G|congruence].
Qed.
Lemma as_entry_good st id : goods st -> dentry_good (as_entry st id).
Proof.
  intros H. unfold as_entry. destruct (sget st id) as [d|] eqn:E; [|split; reflexivity].
  destruct (dget (lit "Limits") d) as [o|] eqn:El; [|split; reflexivity]. destruct o as [| | |l| | | | | |]; try (split; reflexivity).
  destruct l as [|a [|b l]]; try (split; reflexivity); destruct a; try (split; reflexivity); destruct b; try (split; reflexivity);
    destruct l; try (split; reflexivity).
  assert (HS : dn (OSeq [OStr s; OStr s0]) = true) by (eapply (good_get (lit "Limits")); [apply (H _ _ E)|lits|exact El]).
  apply dn_seq in HS. inversion HS as [|? ? A1 A2]; subst. inversion A2 as [|? ? B1 B2]; subst.
  unfold dn in A1, B1. cbn [denote] in A1, B1. cbn [dentry_good]. destruct (plain_text s), (plain_text s0); try discriminate. auto.
Qed.
Lemma entry_hi e : dentry_good e -> plain_text (hi_of e) = true.
Proof. destruct e; cbn [dentry_good hi_of]; tauto. Qed.
Lemma entry_lo e : dentry_good e -> plain_text (lo_of e) = true.
Proof. destruct e; cbn [dentry_good lo_of]; tauto. Qed.
Lemma goods_but cur st : goods st -> but cur st.
Proof. intros H id d Hd. left. eauto. Qed.
Lemma open_but first lo st : plain_text lo = true -> goods st -> but (S (List.length st)) (st ++ [open_node first lo]).
Proof.
  intros Hl H id d Hd. destruct (Nat.eq_dec id (S (List.length st))) as [->|Hne].
  - rewrite sadd_new in Hd. injection Hd as <-. right. split; [reflexivity|]. exists lo, (node_key first), []. split; [reflexivity|].
    split; [exact Hl|]. split; [apply node_key_cases|constructor].
  - rewrite sadd_old in Hd by exact Hne. left. eauto.
Qed.
Lemma dests_loop_good first l : forall st i cur count acc st' c' n' acc', Forall dentry_good l -> Forall dentry_good acc ->
  (if (i mod 7 =? 0)%nat then goods st else but cur st) -> (l = [] -> goods st) ->
  dests_loop first st i cur count acc l = (st', c', n', acc') -> goods st' /\ Forall dentry_good acc'.
Proof.
  induction l as [|e l IH]; intros st i cur count acc st' c' n' acc' Hl Ha H H0 E; cbn [dests_loop] in E.
  - injection E as <- _ _ <-. auto.
  - inversion Hl as [|? ? He Hl']; subst.
    assert (HB : exists st1 cur1 count1, (if (i mod 7 =? 0)%nat then
          let '(id, st') := sadd st (open_node first (lo_of e)) in (st', id, S count)
        else (st, cur, count)) = (st1, cur1, count1) /\ but cur1 st1).
    { destruct (i mod 7 =? 0)%nat; [|eauto 6]. cbn [sadd]. do 3 eexists. split; [reflexivity|]. apply open_but; [now apply entry_lo|exact H]. }
    destruct HB as (st1 & cur1 & count1 & EB & HB). rewrite EB in E. clear EB H H0.
    pose proof (append_but first cur1 st1 e He HB) as H2. set (st2 := supd st1 cur1 _) in *. clearbody st2.
    destruct (((i + 1) mod 7 =? 0)%nat || match l with [] => true | _ => false end) eqn:Ec.
    + pose proof (limit_goods cur1 _ st2 (entry_hi _ He) H2) as H3. set (st3 := supd st2 cur1 _) in *. clearbody st3.
      eapply IH; [exact Hl'| | | |exact E].
      * apply Forall_app. split; [exact Ha|]. constructor; [now apply as_entry_good|constructor].
      * destruct ((i + 1) mod 7 =? 0)%nat; [exact H3|now apply goods_but].
      * auto.
    + apply orb_false_iff in Ec as [Ec1 Ec2]. eapply IH; [exact Hl'|exact Ha| | |exact E].
      * rewrite Ec1. exact H2.
      * intros ->. discriminate.
Qed.
Lemma set_dests_good id d : good d -> good (set_dests id d).
Proof.
  intros H. unfold set_dests.
  assert (H1 : good (if dmem (lit "Names") d then d else dset (lit "Names") (ODict []) d)).
  { destruct (dmem (lit "Names") d); [exact H|]. apply good_dset; [entry; reflexivity|exact H]. }
  set (rd1 := if dmem (lit "Names") d then d else _) in *. clearbody rd1.
  destruct (dget (lit "Names") rd1) as [o|] eqn:E; [|exact H1]. destruct o; try exact H1.
  apply good_dset; [|exact H1]. entry. apply dn_dict. apply dgood_dset; [entry; apply dn_oref|].
  apply dn_dict. eapply (good_get (lit "Names")); [exact H1|lits|exact E].
Qed.
Lemma dpop_good k d : good d -> good (dpop k d).
Proof. intros H. apply Forall_forall. intros x Hx. apply in_dpop in Hx. unfold good in H. rewrite Forall_forall in H. auto. Qed.
Lemma build_dests_tree_good fuel : forall first st root l st', Forall dentry_good l -> goods st ->
  build_dests_tree fuel first st root l = Ok st' -> goods st'.
Proof.
  induction fuel as [|fuel IH]; intros first st root l st' Hl H E; cbn [build_dests_tree] in E; [discriminate|].
  destruct (dests_loop first st 0 0 0 [] l) as [[[st1 cur] count] acc] eqn:El.
  destruct (dests_loop_good first l st 0 0 0 [] _ _ _ _ Hl (Forall_nil _) H (fun _ => H) El) as [H1 Ha].
  destruct (count =? 1)%nat; [|eapply IH; eauto]. injection E as <-. apply goods_iff. apply goods_iff in H1.
  apply good_supd; [intros d; apply set_dests_good|]. apply good_supd; [intros d; apply dpop_good|exact H1].
Qed.
Lemma insert_key_in {V} (kv : str * V) l x : In x (insert_key kv l) -> x = kv \/ In x l.
Proof.
  induction l as [|a l IH]; cbn [insert_key]; [intros [<-|[]]; auto|]. destruct (str_ltb (fst kv) (fst a)).
  - intros [<-|H]; auto.
  - intros [<-|H]; [right; now left|]. destruct (IH H); [auto|right; now right].
Qed.
Lemma sort_keys_in {V} (l : list (str * V)) x : In x (sort_keys l) -> In x l.
Proof.
  induction l as [|a l IH]; cbn [sort_keys fold_right]; [tauto|]. intros H. apply insert_key_in in H as [->|H]; [now left|right; now apply IH].
Qed.
Lemma build_dests_good st root dests st' : (forall l v, In (l, v) dests -> plain_text l = true /\ dn v = true) -> goods st ->
  build_dests st root dests = Ok st' -> goods st'.
Proof.
  intros Hd H E. unfold build_dests in E. destruct dests as [|kv ds] eqn:Ed; [now injection E as <-|]. rewrite <- Ed in *.
  eapply build_dests_tree_good; [|exact H|exact E]. apply Forall_forall. intros e He. apply in_map_iff in He as ([l v] & <- & Hin).
  apply sort_keys_in in Hin. exact (Hd _ _ Hin).
Qed.

(** Outlines. *)
Definition plain_tree (n0 : nat) (t : otree) : Prop :=
  forall n t' l, In (n, (t', l)) (preorder1 n0 t) -> plain_text t' = true /\ plain_text l = true.
Definition node_good (node : otree -> store -> option nat -> store * nat * Z) (t : otree) : Prop :=
  forall st prev st' id c, Forall good st -> node t st prev = (st', id, c) -> Forall good st'.
Lemma siblings_good node l : Forall (node_good node) l -> forall st prev count st' last n, Forall good st ->
  siblings node l st prev count = (st', last, n) -> Forall good st'.
Proof.
  induction 1 as [|t l Ht Hl IH]; intros st prev count st' last n H E; cbn [siblings] in E; [now injection E as <- _ _|].
  destruct (node t st prev) as [[st1 id] c] eqn:E1. eapply IH; [|exact E]. eapply Ht; eauto.
Qed.
Lemma set_last_good st parent last : Forall good st -> Forall good (set_last st parent last).
Proof. intros H. unfold set_last. destruct last; [|exact H]. apply good_sset; [entry; apply dn_oref|exact H]. Qed.
Lemma outline_node_good : forall t n0, plain_tree n0 t -> forall level parent, node_good (outline_node level parent) t.
Proof.
  fix IH 1. intros [title label ch] n0 Hp level parent st prev st' id c H E. cbn [outline_node sadd] in E.
  destruct (Hp n0 title label) as [P1 P2]; [now left|].
  assert (H2 : Forall good (match prev with
                 | Some p => sset (sset (st ++ [new_item title label parent]) (S (List.length st)) (lit "Prev") (oref p)) p (lit "Next") (oref (S (List.length st)))
                 | None => sset (st ++ [new_item title label parent]) parent (lit "First") (oref (S (List.length st)))
                 end)).
  { assert (H1 : Forall good (st ++ [new_item title label parent])).
    { apply Forall_app. split; [exact H|]. constructor; [apply dgood_good|constructor]. unfold new_item.
      constructor; [entry; now apply dn_str|]. constructor; [entry; apply dn_oref|]. constructor; [entry; now apply dn_str|constructor]. }
    destruct prev; repeat (apply good_sset; [entry; apply dn_oref|]); exact H1. }
  assert (HF : Forall (node_good (outline_node (level - 1) (S (List.length st)))) ch).
  { assert (HP : forall t, In t ch -> plain_tree (S n0) t).
    { intros t Ht n t' l Hin. apply (Hp n). cbn [preorder1]. right. apply in_flat_map. eauto. }
    clear - IH HP. induction ch as [|t ch IHc]; constructor.
    - apply (IH t (S n0)). apply HP. now left.
    - apply IHc. intros t0 H0. apply HP. now right. }
  destruct ch as [|c0 ch0]; [now injection E as <- _ _|].
  destruct (siblings (outline_node (level - 1) (S (List.length st))) (c0 :: ch0) _ None 0%Z) as [[st3 last] n] eqn:Es.
  pose proof (siblings_good _ _ HF _ _ _ _ _ _ H2 Es) as H3.
  destruct (1 <? level)%Z; apply (f_equal (fun x => fst (fst x))) in E; cbn [fst] in E; rewrite <- E; (apply good_sset; [entry; reflexivity|]); now apply set_last_good.
Qed.
Lemma build_outlines_good st root outl level : (forall n t l, In (n, (t, l)) (preorder 1 outl) -> plain_text t = true /\ plain_text l = true) ->
  Forall good st -> Forall good (build_outlines st root outl level).
Proof.
  intros Hp H. unfold build_outlines. destruct outl as [|o os] eqn:Eo; [exact H|]. rewrite <- Eo in *. cbn [sadd].
  unfold build_outlines_tree.
  set (st3 := sset (sset (st ++ [_]) root _ _) root _ _).
  assert (H3 : Forall good st3).
  { unfold st3. apply good_sset; [entry; apply dn_oref|]. apply good_sset; [entry; reflexivity|]. apply Forall_app. split; [exact H|].
    constructor; [apply dgood_good|constructor]. constructor; [entry; reflexivity|constructor]. }
  clearbody st3. destruct (siblings (outline_node level (S (List.length st))) outl st3 None 0%Z) as [[st4 last] n] eqn:Es.
  apply good_sset; [entry; reflexivity|]. apply set_last_good. eapply siblings_good; [|exact H3|exact Es].
  apply Forall_forall. intros t Ht. apply (outline_node_good t 1). intros n0 t' l Hin. apply (Hp n0). unfold preorder. apply in_flat_map. eauto.
Qed.

(** ** Which objects are streams *)
Definition keeps (f : dict -> dict) : Prop := forall d, dget k_stream (f d) = dget k_stream d.
Definition only (S : nat -> Prop) (st : store) : Prop := forall id d, sget st id = Some d -> dget k_stream d <> None -> S id.
Lemma only_supd S st id f : keeps f -> only S st -> only S (supd st id f).
Proof.
  intros Hf H i d Hd Hs. apply sget_supd in Hd as (d0 & D0 & [[-> ->]|[_ ->]]); [|eauto]. rewrite Hf in Hs. eauto.
Qed.
Lemma only_app S st d : dget k_stream d = None -> only S st -> only S (st ++ [d]).
Proof.
  intros Hd H i e He Hs. destruct (Nat.eq_dec i (Datatypes.S (List.length st))) as [->|Hne].
  - rewrite sadd_new in He. injection He as <-. contradiction.
  - rewrite sadd_old in He by exact Hne. eauto.
Qed.
Lemma keeps_dset k v : k <> k_stream -> keeps (dset k v).
Proof. intros Hk d. apply dget_dset_other. congruence. Qed.
Lemma only_sset S st id k v : k <> k_stream -> only S st -> only S (sset st id k v).
Proof. intros Hk. apply only_supd. now apply keeps_dset. Qed.
Lemma keeps_dappend k x : k <> k_stream -> keeps (dappend k x).
Proof. intros Hk d. unfold dappend. destruct (dget k d) as [o|]; [|reflexivity]. destruct o; try reflexivity. now apply keeps_dset. Qed.
Lemma keeps_dincr k : k <> k_stream -> keeps (dincr k).
Proof. intros Hk d. unfold dincr. destruct (dget k d) as [o|]; [|reflexivity]. destruct o; try reflexivity. now apply keeps_dset. Qed.
Lemma keeps_dappends k xs : k <> k_stream -> keeps (dappends k xs).
Proof.
  intros Hk d. unfold dappends. revert d. induction xs as [|x xs IH]; intros d; cbn [fold_left]; [reflexivity|]. rewrite IH. now apply keeps_dappend.
Qed.
Lemma keeps_limit hi : keeps (set_limit hi).
Proof.
  intros d. unfold set_limit. destruct (dget (lit "Limits") d) as [o|]; [|reflexivity]. destruct o as [| | |l| | | | | |]; try reflexivity.
  destruct l as [|a [|b [|c l]]]; try reflexivity. apply keeps_dset. lits.
Qed.
Lemma keeps_dests id : keeps (set_dests id).
Proof.
  intros d. unfold set_dests. set (rd := if dmem (lit "Names") d then d else _).
  assert (E : dget k_stream rd = dget k_stream d).
  { unfold rd. destruct (dmem (lit "Names") d); [reflexivity|]. apply keeps_dset. lits. }
  destruct (dget (lit "Names") rd) as [o|]; [|exact E]. destruct o; try exact E. rewrite <- E. apply keeps_dset. lits.
Qed.
Lemma keeps_dpop k : k <> k_stream -> keeps (dpop k).
Proof. intros Hk d. apply dget_dpop_other. congruence. Qed.

Lemma pages_loop_only S l : forall st count nodes st' c' n', only S st ->
  pages_loop st count nodes l = (st', c', n') -> only S st'.
Proof.
  induction l as [|[p wh] l IH]; intros st count nodes st' c' n' H E; cbn [pages_loop] in E; [now injection E as <- _ _|].
  assert (H1 : only S (match wh with Some (w, h) => sset st p (lit "MediaBox") (media_box w h) | None => st end)).
  { destruct wh as [[w h]|]; [|exact H]. apply only_sset; [lits|exact H]. }
  destruct (count mod 6 =? 0)%nat; cbn [sadd] in E; (eapply IH; [|exact E]);
    (apply only_supd; [apply keeps_dincr; lits|]); (apply only_supd; [apply keeps_dappend; lits|]);
    (apply only_sset; [lits|]); [|exact H1]. apply only_app; [reflexivity|exact H1].
Qed.
Lemma build_pages_only S fuel : forall st root l st', only S st -> build_pages fuel st root l = Ok st' -> only S st'.
Proof.
  induction fuel as [|fuel IH]; intros st root l st' H E; cbn [build_pages] in E; [discriminate|].
  destruct (pages_loop st 0 [] l) as [[st1 count] nodes] eqn:El. pose proof (pages_loop_only S _ _ _ _ _ _ _ H El) as H1.
  destruct (count =? 1)%nat; [|eapply IH; eauto]. injection E as <-. apply only_sset; [lits|exact H1].
Qed.
Lemma dests_loop_only S first l : forall st i cur count acc st' c' n' acc', only S st ->
  dests_loop first st i cur count acc l = (st', c', n', acc') -> only S st'.
Proof.
  induction l as [|e l IH]; intros st i cur count acc st' c' n' acc' H E; cbn [dests_loop] in E; [now injection E as <- _ _ _|].
  assert (HK : node_key first <> k_stream) by (destruct first; lits).
  destruct (i mod 7 =? 0)%nat; cbn [sadd] in E;
    (destruct (((i + 1) mod 7 =? 0)%nat || match l with [] => true | _ => false end); (eapply IH; [|exact E]);
     try (apply only_supd; [apply keeps_limit|]); (apply only_supd; [apply keeps_dappends; exact HK|]);
     (try exact H); (apply only_app; [destruct first; reflexivity|exact H])).
Qed.
Lemma build_dests_tree_only S fuel : forall first st root l st', only S st ->
  build_dests_tree fuel first st root l = Ok st' -> only S st'.
Proof.
  induction fuel as [|fuel IH]; intros first st root l st' H E; cbn [build_dests_tree] in E; [discriminate|].
  destruct (dests_loop first st 0 0 0 [] l) as [[[st1 cur] count] acc] eqn:El.
  pose proof (dests_loop_only S _ _ _ _ _ _ _ _ _ _ _ H El) as H1.
  destruct (count =? 1)%nat; [|eapply IH; eauto]. injection E as <-. apply only_supd; [apply keeps_dests|].
  apply only_supd; [apply keeps_dpop; lits|exact H1].
Qed.
Lemma build_dests_only S st root dests st' : only S st -> build_dests st root dests = Ok st' -> only S st'.
Proof.
  intros H E. unfold build_dests in E. destruct dests; [now injection E as <-|]. eapply build_dests_tree_only; eauto.
Qed.
Definition node_only S (node : otree -> store -> option nat -> store * nat * Z) (t : otree) : Prop :=
  forall st prev st' id c, only S st -> node t st prev = (st', id, c) -> only S st'.
Lemma siblings_only S node l : Forall (node_only S node) l -> forall st prev count st' last n, only S st ->
  siblings node l st prev count = (st', last, n) -> only S st'.
Proof.
  induction 1 as [|t l Ht Hl IH]; intros st prev count st' last n H E; cbn [siblings] in E; [now injection E as <- _ _|].
  destruct (node t st prev) as [[st1 id] c] eqn:E1. eapply IH; [|exact E]. eapply Ht; eauto.
Qed.
Lemma set_last_only S st parent last : only S st -> only S (set_last st parent last).
Proof. intros H. unfold set_last. destruct last; [|exact H]. apply only_sset; [lits|exact H]. Qed.
Lemma outline_node_only S : forall t level parent, node_only S (outline_node level parent) t.
Proof.
  fix IH 1. intros [title label ch] level parent st prev st' id c H E. cbn [outline_node sadd] in E.
  assert (H2 : only S (match prev with
                 | Some p => sset (sset (st ++ [new_item title label parent]) (Datatypes.S (List.length st)) (lit "Prev") (oref p)) p (lit "Next") (oref (Datatypes.S (List.length st)))
                 | None => sset (st ++ [new_item title label parent]) parent (lit "First") (oref (Datatypes.S (List.length st)))
                 end)).
  { assert (H1 : only S (st ++ [new_item title label parent])) by (apply only_app; [reflexivity|exact H]).
    destruct prev; repeat (apply only_sset; [lits|]); exact H1. }
  assert (HF : Forall (node_only S (outline_node (level - 1) (Datatypes.S (List.length st)))) ch).
  { clear - IH. induction ch as [|t ch IHc]; constructor; [apply IH|exact IHc]. }
  destruct ch as [|c0 ch0]; [now injection E as <- _ _|].
  destruct (siblings (outline_node (level - 1) (Datatypes.S (List.length st))) (c0 :: ch0) _ None 0%Z) as [[st3 last] n] eqn:Es.
  pose proof (siblings_only S _ _ HF _ _ _ _ _ _ H2 Es) as H3.
  destruct (1 <? level)%Z; apply (f_equal (fun x => fst (fst x))) in E; cbn [fst] in E; rewrite <- E;
    (apply only_sset; [lits|]); now apply set_last_only.
Qed.
Lemma build_outlines_only S st root outl level : only S st -> only S (build_outlines st root outl level).
Proof.
  intros H. unfold build_outlines. destruct outl as [|o os] eqn:Eo; [exact H|]. rewrite <- Eo in *. cbn [sadd].
  unfold build_outlines_tree. set (st3 := sset (sset (st ++ [_]) root _ _) root _ _).
  assert (H3 : only S st3) by (unfold st3; repeat (apply only_sset; [lits|]); apply only_app; [reflexivity|exact H]).
  clearbody st3. destruct (siblings (outline_node level (Datatypes.S (List.length st))) outl st3 None 0%Z) as [[st4 last] n] eqn:Es.
  apply only_sset; [lits|]. apply set_last_only. eapply siblings_only; [|exact H3|exact Es].
  apply Forall_forall. intros t Ht. apply outline_node_only.
Qed.
Lemma output_only num S s level st : only S (d_st s) -> output_objects num level s = Ok st -> only S st.
Proof.
  intros H E. unfold output_objects in E. destruct (d_pages s) as [|pg0 pgs] eqn:Ep; [discriminate|]. rewrite <- Ep in *.
  destruct (build_pages 1 _ 1 _) as [st1|] eqn:E1; [|discriminate]. cbn [bind] in E.
  destruct (build_dests st1 1 (d_dests s)) as [st2|] eqn:E2; [|discriminate]. cbn [bind] in E. injection E as <-.
  apply build_outlines_only. eapply build_dests_only; [|exact E2]. eapply build_pages_only; [|exact E1]. exact H.
Qed.

(** ** Whole documents *)
Section Docs.
Variable load_ttf : str -> res ttf.
Variable num : Q -> obj.
Variable round3 : Q -> Q.
Variable tt_descr : ttf -> dict.
Variable tt_file : ttf -> bytes.
Hypothesis num_ok : forall q, dn (num q) = true.
Hypothesis ttf_ok : forall path t, load_ttf path = Ok t -> plain_name (tt_base t) = true /\ dgood (tt_descr t).
Notation oinv := (oinv tt_descr).

Lemma run_oinv ops : Forall clear_op ops -> forall h s s', inv load_ttf num round3 tt_descr tt_file [] False h s -> oinv s ->
  run load_ttf num round3 tt_descr tt_file ops s = Ok s' -> oinv s'.
Proof.
  induction 1 as [|o ops Ho Hops IH]; intros h s s' I H E; cbn [run] in E; [now injection E as <-|].
  destruct (step load_ttf num round3 tt_descr tt_file o s) as [s1|] eqn:E1; [|discriminate]. cbn [bind] in E.
  destruct (step_inv load_ttf num round3 tt_descr tt_file [] False h s o s1 I (fun F => match F with end) E1) as (es & _ & I1).
  eapply IH; [exact I1| |exact E]. eapply step_oinv; eauto. apply I.
Qed.
Lemma made_oinv p ops s : Forall clear_op ops -> made load_ttf num round3 tt_descr tt_file p ops s -> oinv s.
Proof.
  intros Hc (s0 & H0 & H).
  destruct (new_pdf_inv load_ttf num round3 tt_descr tt_file [] False p s0 (fun F => match F with end) H0) as (I0 & _ & _).
  eapply run_oinv; [exact Hc|exact I0| |exact H]. unfold new_pdf in H0.
  destruct (add_or_get_font _ _ _ _ _ _) as [[v s1]|] eqn:E; [|discriminate]. cbn [bind] in H0. injection H0 as <-.
  eapply add_or_get_font_oinv; [exact num_ok|exact ttf_ok| |exact E].
  constructor; cbn [d_st d_pages d_fs d_used d_dests d_images d_outl]; try (intros; contradiction); try (intros; discriminate).
  - constructor; [apply dgood_good; constructor; [entry; reflexivity|constructor]|constructor].
  - constructor.
  - apply init_fsgood.
  - constructor; [apply inert_plain; reflexivity|constructor].
Qed.
Lemma output_good s level st : oinv s -> output_objects num level s = Ok st -> Forall good st.
Proof.
  intros O E. unfold output_objects in E. destruct (d_pages s) as [|pg0 pgs] eqn:Ep; [discriminate|]. rewrite <- Ep in *.
  destruct (build_pages 1 _ 1 _) as [st1|] eqn:E1; [|discriminate]. cbn [bind] in E.
  destruct (build_dests st1 1 (d_dests s)) as [st2|] eqn:E2; [|discriminate]. cbn [bind] in E. injection E as <-.
  apply build_outlines_good; [apply O|]. apply goods_iff. eapply build_dests_good; [apply O| |exact E2]. apply goods_iff.
  eapply build_pages_good; [|apply O|exact E1]. apply Forall_forall. intros it Hit. apply in_map_iff in Hit as (pg & <- & _).
  split; apply num_ok.
Qed.
End Docs.
