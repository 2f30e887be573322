(** Footnotes (C52). *)
From Coq Require Import String QArith Qround ZArith Lia Lqa.
From Verif Require Import Py PyStr Parser StreamProofs Ranges Base Table Content Footnotes FootnotesProofs FootnotesFlat FootnotesText.
Open Scope list_scope.
Open Scope nat_scope.

(** ** The names of the marks *)

(** Going over a document, with [marks] its marks in order: the footnotes are
    those of the marks, in order, and each mark has its number as the last of
    its ids and as the variable that it shows, and nothing else changed but the
    style. *)
Theorem C52_names doc doc' fn : traverse [] doc = Ok (doc', fn) ->
  fn = map note (marks doc) /\ all_labelled 0 (marks doc) (marks doc').
Proof. intros H. destruct (traverse_ok _ _ _ _ H) as [H1 H2]. auto. Qed.

Example C52_names_applies :
  let doc := NList [NDict [(lit "content", NList [NText (lit "a"); NDict [(lit "footnote", NText (lit "one"))];
                      NDict [(lit ".", NTuple [NDict [(lit "footnote", NOther (lit "2")); (lit "ids", NList [NText (lit "x")])]])]])];
                    NDict [(lit "footnote", NDict [(lit ".", NText (lit "three"))])]] in
  match traverse [] doc with
  | Ok (doc', fn) => fn = [NDict [(lit ".", NText (lit "one"))]; NDict [(lit ".", NText (lit "2"))]; NDict [(lit ".", NText (lit "three"))]] /\
      map (dget (lit "ids")) (marks doc') = [Some (NList [NText (lit "$footnote:0")]); Some (NList [NText (lit "x"); NText (lit "$footnote:1")]); Some (NList [NText (lit "$footnote:2")])]
  | Err _ => False
  end.
Proof. vm_compute. auto. Qed.

(** ** The numbers of a page *)
Section Pages.
Context {E O S P L T K : Type}.
Variable start : E -> res O.
Variable crun : ctx -> O -> Q -> Q -> Q -> Q -> res (O * Q * bool * list P * list L).
Variable save : O -> S.
Variable restore : O -> S -> O.
Variable ids_of : P -> list (str * nat).
Variable notes_height : list (str * T) -> res Q.
Variable fn : list T.
Notation elem := (@elem E).
Notation content := (@content E O S).
Notation shownp := (@shownp O P L T).
Notation add_content := (add_content start crun save restore ids_of notes_height fn).

(** The marks of a page, and a page whose marks are [ks]: they show 1, 2, ...
    and the footnotes of the page are theirs, with the same numbers. *)
Definition page_marks (p : shownp) : list str := shown_marks (page_ids ids_of (sh_out p)).
Definition page_with (ks : list nat) (p : shownp) : Prop :=
  exists ts, map (nth_error fn) ks = map Some ts /\
    marks_shown ids_of p = map (fun x => (name_of (snd x), dec_Z (Z.of_nat (fst x)))) (count 1 ks) /\
    sh_notes p = map (fun x => (dec_Z (Z.of_nat (fst x)) ++ lit " ", snd x)) (count 1 ts).

(** Any page whose final pass shows the first marks of the first one. *)
Theorem C52_page_partial fuel x y w h k c c' k' p ks1 ks2 c1 out1 ts1 :
  add_content fuel x y w h k c = Done (c', k', p) ->
  run start (crun k) save restore fuel x y w h c = Done (c1, out1) ->
  shown_marks (page_ids ids_of out1) = map name_of ks1 -> map (nth_error fn) ks1 = map Some ts1 -> NoDup ks1 ->
  page_marks p = map name_of ks2 -> prefix ks2 ks1 -> page_with ks2 p.
Proof. intros. eapply page_numbers; eauto. Qed.

(** Paragraphs: what of them stays the same (kind), their marks, and those that
    they have left. *)
Variable kind : O -> K.
Variable lmarks : E -> list str.
Variable left_of : O -> list str.
Hypothesis kind_run : forall k o x y w h o' ht fin ps ls, crun k o x y w h = Ok (o', ht, fin, ps, ls) -> kind o' = kind o.
Hypothesis kind_restore : forall o sv, kind (restore o sv) = kind o.
Hypothesis same_restore : forall o o' sv, kind o = kind o' -> restore o sv = restore o' sv.
Hypothesis save_ok : forall o, restore o (save o) = o.
Hypothesis left_start : forall e o, start e = Ok o -> left_of o = lmarks e.
Hypothesis left_run : forall k o x y w h o' ht fin ps ls, crun k o x y w h = Ok (o', ht, fin, ps, ls) ->
  left_of o = part_marks ids_of ps ++ left_of o' /\ (fin = true -> left_of o' = []).
(** With less height, whatever the numbers of the marks. *)
Hypothesis less_height : forall k k', shorter ids_of (crun k) (crun k').
Hypothesis notes_positive : forall l q, notes_height l = Ok q -> (0 <= q)%Q.
Notation text_box := (text_box (E := E) (S := S) restore lmarks left_of).

Lemma page_acc elems fuel x y w h k c t c' k' p : text_box elems c t -> c_finished c = false ->
  add_content fuel x y w h k c = Done (c', k', p) ->
  exists t' c1 out1, t = page_marks p ++ t' /\ (if c_finished c' then t' = [] else text_box elems c' t') /\
    run start (crun k) save restore fuel x y w h c = Done (c1, out1) /\
    prefix (page_marks p) (shown_marks (page_ids ids_of out1)) /\ prefix (shown_marks (page_ids ids_of out1)) t.
Proof.
  intros Ht Hfin H. unfold Footnotes.add_content in H.
  match type of H with abind ?e _ = _ => destruct e as [st| |] eqn:Est; try discriminate end. cbn [abind] in H.
  destruct (run start (crun k) save restore fuel x y w h c) as [[c1 out1]| |] eqn:Erun; try discriminate. cbn [abind] in H.
  pose proof (run_acc start (crun k) save restore ids_of kind lmarks left_of (kind_run k) kind_restore save_ok left_start (left_run k) _ _ _ _ _ _ _ _ _ _ Ht Erun) as (t1 & Hm1 & Hc1).
  change (placed_marks ids_of (o_parts out1)) with (shown_marks (page_ids ids_of out1)) in Hm1.
  destruct (lift (check_ids fn k [] (page_ids ids_of out1))) as [[k1 notes1]| |]; try discriminate. cbn [abind] in H.
  destruct notes1 as [|n1 notes1].
  { injection H as <- <- <-. exists t1, c1, out1. split; [exact Hm1|]. split; [exact (Hc1 Hfin)|]. split; [reflexivity|]. split; [apply prefix_refl|]. exists t1. exact Hm1. }
  destruct (notes_height (numbered 0 (n1 :: notes1))) as [fh|] eqn:Efh; [|discriminate]. cbn [lift abind] in H. apply notes_positive in Efh.
  destruct (Qle_bool (h - 10 - 20) fh); [discriminate|].
  (* the box that the second pass starts from *)
  pose proof Ht as (T1 & T2 & T3 & T4). pose proof Erun as Hrun. unfold run in Hrun.
  match type of Hrun with abind ?e _ = _ => destruct e as [f0| |] eqn:E0; try discriminate end. cbn [abind] in Hrun.
  match type of Hrun with abind ?e _ = _ => destruct e as [[act [[f1 anc1] g1]]| |] eqn:E1; try discriminate end. cbn [abind] in Hrun. injection Hrun as Hrun1 Hrun2.
  destruct fuel as [|fuel]; [discriminate|]. cbn [run_part] in E1. pose proof E1 as E1'.
  set (m := (y - (h - fh - 10))%Q).
  assert (Hf0 : tp f0 /\ f_elems f0 = elems /\ f_sdelayed f0 = f_delayed f0 /\ f_index f0 = f_sindex f0 /\ t = todo restore lmarks left_of (c_heap c) elems (f_index f0) (f_delayed f0) /\
     f_maxy f0 = (y - h)%Q /\ st = (f_index f0, f_delayed f0, f_memory f0) /\
     forall f, keep f0 f -> f_cols f = 1 -> setup x w y m 0 (with_section f (f_index f0) (f_delayed f0) (f_memory f0)) = Done (with_todo (with_maxy m f0) (f_index f0) (f_delayed f0))).
  { destruct (c_part c) as [p0|] eqn:Ep.
    - destruct T4 as (P1 & P2 & P3 & P4 & P5). unfold setup in E0. rewrite P2 in E0. injection E0 as <-. cbn [f_elems f_sdelayed f_delayed f_index f_sindex f_maxy f_memory].
      split; [constructor; cbn; auto; congruence|]. split; [exact P1|]. split; [reflexivity|]. split; [reflexivity|]. split; [exact P5|]. split; [reflexivity|].
      split; [unfold get_state in Est; rewrite Ep in Est; injection Est as <-; reflexivity|].
      intros f (K1 & K2 & K3 & K4) K5. cbn [f_elems f_gapspec f_last f_partial] in *. unfold setup. cbn [with_section f_cols f_gapspec f_elems f_last f_partial f_sindex f_sdelayed f_memory].
      rewrite K1, K2, K3, K4, K5. reflexivity.
    - unfold new_part, setup in E0. cbn [f_cols] in E0. rewrite T2 in E0. injection E0 as <-. cbn [f_elems f_sdelayed f_delayed f_index f_sindex f_maxy f_memory].
      split; [constructor; cbn; auto; try (left; reflexivity); congruence|]. split; [exact T1|]. split; [reflexivity|]. split; [reflexivity|]. split; [exact T4|]. split; [reflexivity|].
      split; [injection Est as <-; reflexivity|].
      intros f (K1 & K2 & K3 & K4) K5. cbn [f_elems f_gapspec f_last f_partial] in *. unfold setup. cbn [with_section f_cols f_gapspec f_elems f_last f_partial f_sindex f_sdelayed f_memory].
      rewrite K1, K2, K3, K4, K5. reflexivity. }
  destruct Hf0 as (Htp & He & Hs & Hi & Htd & Hmy & -> & Hset).
  apply (loop_acc start (crun k) save restore ids_of kind lmarks left_of (kind_run k) kind_restore save_ok left_start (left_run k)) in E1'; [|exact Htp].
  destruct E1' as (K1 & K2 & K3 & K4 & K5 & K6 & _). cbn [g_heap] in K4, K5.
  rewrite <- Hrun1 in H. cbn [set_state c_part abind c_elems c_cols c_gap c_heap c_tries] in H.
  set (c2 := mkC (c_elems c) (c_cols c) (c_gap c) (Some (with_section f1 (f_index f0) (f_delayed f0) (f_memory f0))) false (g_heap g1) (g_tries g1)) in *.
  assert (Ht2 : text_box elems c2 t).
  { split; [exact T1|]. split; [exact T2|]. split; [exact T3|]. cbn [c2 c_part c_heap with_section f_elems f_cols f_sdelayed f_sindex].
    split; [destruct K1 as (-> & _); exact He|]. split; [exact K2|]. split; [apply (tp_del f0 Htp)|].
    split; [intros s r v X; destruct (K5 _ _ _ X) as [o Ho]; destruct (K4 _ _ Ho) as (o' & Ho' & _); eauto|].
    rewrite Htd. unfold todo. f_equal. symmetry. apply (dleft_kinds restore kind left_of same_restore); assumption. }
  destruct (run start (crun k1) save restore (Datatypes.S fuel) x y w (h - fh - 10) c2) as [[c3 out3]| |] eqn:Erun3; try discriminate. cbn [abind] in H.
  pose proof (run_acc start (crun k1) save restore ids_of kind lmarks left_of (kind_run k1) kind_restore save_ok left_start (left_run k1) _ _ _ _ _ _ _ _ _ _ Ht2 Erun3) as (t3 & Hm3 & Hc3).
  change (placed_marks ids_of (o_parts out3)) with (shown_marks (page_ids ids_of out3)) in Hm3. specialize (Hc3 eq_refl).
  assert (Hpre : prefix (shown_marks (page_ids ids_of out3)) (shown_marks (page_ids ids_of out1))).
  { unfold run in Erun3. unfold c2 in Erun3. cbn [c_part] in Erun3. change (y - (h - fh - 10))%Q with m in Erun3. rewrite (Hset f1 K1 K2) in Erun3. cbn [abind c_heap c_tries c_elems c_cols c_gap c_finished] in Erun3.
    match type of Erun3 with abind ?e _ = _ => destruct e as [[act3 [[f3 anc3] g3]]| |] eqn:E3; try discriminate end. cbn [abind] in Erun3. injection Erun3 as <- <-.
    cbn [run_part] in E3.
    assert (Hm0 : (f_maxy f0 <= m)%Q) by (rewrite Hmy; unfold m; lra).
    assert (Hsd : same_delayed restore f0 (f_delayed f0) (c_heap c) (g_heap g1)).
    { destruct (tp_del f0 Htp) as [Hd|(s & r & v & Hd)]; [left; auto|right]. exists s, r, r, v. split; [exact Hd|]. split; [exact Hd|].
      intros oA oB HA HB. apply same_restore. destruct (K4 _ _ HA) as (o' & HB' & Hk). congruence. }
    destruct (loop_two start save restore ids_of (crun k) (crun k1) (less_height k k1) _ _ _ _ _ _ (mkG [] [] (c_heap c) (c_tries c)) (mkG [] [] (g_heap g1) (g_tries g1))
       _ _ _ _ _ _ _ _ Htp Hm0 Hsd E1 E3) as (newA & newB & PA & PB & Hpre).
    cbn [g_parts app] in PA, PB. rewrite <- Hrun2. unfold page_ids. cbn [o_parts]. rewrite PA, PB. exact Hpre. }
  assert (Hp : sh_out p = out3 /\ c' = c3).
  { destruct (lift (check_ids fn k1 [] (page_ids ids_of out3))) as [[k3 n3]| |]; try discriminate. cbn [abind] in H.
    destruct n3; [injection H as <- <- <-; auto|].
    match type of H with abind ?e _ = _ => destruct e; try discriminate end. injection H as <- <- <-. auto. }
  destruct Hp as [Hp ->]. exists t3, c1, out1. unfold page_marks. rewrite Hp. split; [exact Hm3|]. split; [exact Hc3|]. split; [reflexivity|]. split; [exact Hpre|]. exists t1. exact Hm1.
Qed.

(** The pages of a box, each in its rectangle. *)
Record prect := mkPrect { pr_x : Q; pr_y : Q; pr_w : Q; pr_h : Q }.
Fixpoint doc_pages (fuel : nat) (rs : list prect) (k : ctx) (c : content) : ans (content * list shownp) :=
  match rs with
  | [] => Done (c, [])
  | r :: rs =>
      if c_finished c then Done (c, [])
      else run! (c1, k1, p) <- add_content fuel (pr_x r) (pr_y r) (pr_w r) (pr_h r) k c;
           run! (c2, ps) <- doc_pages fuel rs k1 c1;
           Done (c2, p :: ps)
  end.

(** The marks of the paragraphs of a box. *)
Definition is_paragraph (e : elem) : Prop := match e with Leaf _ _ => True | _ => False end.
Definition box_marks (l : list elem) : list str := flat_map (fun e => match e with Leaf _ e => lmarks e | _ => [] end) l.

Lemma doc_pages_ok elems fuel rs : forall k c t c' ps ks ts, text_box elems c t -> c_finished c = false -> t = map name_of ks -> NoDup ks -> map (nth_error fn) ks = map Some ts ->
  doc_pages fuel rs k c = Done (c', ps) ->
  exists kss rest, ks = concat kss ++ rest /\ Forall2 page_with kss ps /\ (c_finished c' = true -> rest = []).
Proof.
  induction rs as [|r rs IH]; intros k c t c' ps ks ts Ht Hfin Hks Hnd Hts H; cbn [doc_pages] in H.
  - injection H as <- <-. exists [], ks. split; [reflexivity|]. split; [constructor|]. congruence.
  - rewrite Hfin in H. destruct (add_content fuel (pr_x r) (pr_y r) (pr_w r) (pr_h r) k c) as [[[c1 k1] p]| |] eqn:Ea; try discriminate. cbn [abind] in H.
    destruct (doc_pages fuel rs k1 c1) as [[c2 ps2]| |] eqn:Er; try discriminate. cbn [abind] in H. injection H as <- <-.
    destruct (page_acc _ _ _ _ _ _ _ _ _ _ _ _ Ht Hfin Ea) as (t' & cA & outA & M1 & M2 & M3 & M4 & M5).
    (* split the numbers of the marks *)
    assert (Hsplit : forall a b, map name_of ks = a ++ b -> exists ka kb, ks = ka ++ kb /\ a = map name_of ka /\ b = map name_of kb).
    { intros a b X. exists (firstn (length a) ks), (skipn (length a) ks). split; [symmetry; apply firstn_skipn|].
      rewrite <- firstn_map, <- skipn_map, X. rewrite firstn_app, skipn_app, Nat.sub_diag, firstn_all, skipn_all. cbn. rewrite app_nil_r. auto. }
    destruct M5 as [tA M5]. rewrite Hks in M1, M5. destruct (Hsplit _ _ M1) as (ka & kb & Eab & Ea1 & Eb1). destruct (Hsplit _ _ M5) as (ka2 & kb2 & Eab2 & Ea2 & _).
    assert (Hpre : prefix ka ka2).
    { destruct M4 as [z M4]. rewrite Ea1, Ea2 in M4. exists (skipn (length ka) ka2).
      assert (X : map name_of (firstn (length ka) ka2) = map name_of ka).
      { rewrite <- firstn_map, M4, firstn_app, map_length, Nat.sub_diag. cbn [firstn]. rewrite app_nil_r. rewrite <- (map_length name_of ka) at 1. apply firstn_all. }
      assert (Y : firstn (length ka) ka2 = ka).
      { clear - X. revert X. generalize (firstn (length ka) ka2) as l. induction ka as [|a ka IH]; intros [|b l] X; try discriminate; [reflexivity|].
        cbn [map] in X. injection X as X1 X2. f_equal; [apply name_inj; unfold name_of; congruence|apply IH; exact X2]. }
      rewrite <- Y at 1. symmetry. apply firstn_skipn. }
    assert (Hpart : forall a b, ks = a ++ b -> exists ta tb, map (nth_error fn) a = map Some ta /\ map (nth_error fn) b = map Some tb).
    { intros a b X. rewrite X, map_app in Hts. exists (firstn (length a) ts), (skipn (length a) ts). rewrite <- firstn_map, <- skipn_map, <- Hts.
      rewrite firstn_app, skipn_app, map_length, Nat.sub_diag. cbn [firstn skipn]. rewrite app_nil_r, <- (map_length (nth_error fn) a), firstn_all, skipn_all. auto. }
    destruct (Hpart _ _ Eab2) as (tA2 & _ & Et2 & _). destruct (Hpart _ _ Eab) as (_ & tb & _ & Etb).
    assert (Hnd2 : NoDup ka2) by (rewrite Eab2 in Hnd; clear - Hnd; induction ka2 as [|a l IH]; [constructor|]; cbn in Hnd; inversion Hnd as [|? ? N1 N2]; subst; constructor; [intros X; apply N1, in_or_app; auto|apply IH; exact N2]).
    assert (Hndb : NoDup kb) by (rewrite Eab in Hnd; clear - Hnd; induction ka as [|a l IH]; [exact Hnd|]; cbn in Hnd; inversion Hnd; subst; auto).
    pose proof (C52_page_partial _ _ _ _ _ _ _ _ _ _ _ _ _ _ _ Ea M3 Ea2 Et2 Hnd2 Ea1 Hpre) as Hpw.
    destruct (c_finished c1) eqn:Ef1.
    + assert (Hps : ps2 = [] /\ c2 = c1).
      { destruct rs; cbn [doc_pages] in Er; [injection Er as <- <-; auto|]. rewrite Ef1 in Er. injection Er as <- <-. auto. }
      destruct Hps as [-> ->]. subst t'. destruct kb; [|discriminate]. exists [ka], []. cbn [concat]. rewrite !app_nil_r. split; [rewrite Eab, app_nil_r; reflexivity|].
      split; [constructor; [exact Hpw|constructor]|auto].
    + destruct (IH k1 c1 t' c2 ps2 kb tb M2 Ef1 Eb1 Hndb Etb Er) as (kss & rest & R1 & R2 & R3).
      exists (ka :: kss), rest. cbn [concat]. split; [rewrite Eab, R1, app_assoc; reflexivity|]. split; [constructor; assumption|exact R3].
Qed.

(** A section of paragraphs in one column: on each page the marks show 1, 2, ...
    and the list of footnotes has theirs, and over the pages all the marks come,
    in order, each on one page. *)
Theorem C52_text_partial fuel elems gap rs k c ps ks ts :
  Forall is_paragraph elems -> box_marks elems = map name_of ks -> NoDup ks -> map (nth_error fn) ks = map Some ts ->
  doc_pages fuel rs k (fresh_content elems 1 gap) = Done (c, ps) ->
  exists kss rest, ks = concat kss ++ rest /\ Forall2 page_with kss ps /\ (c_finished c = true -> rest = []).
Proof.
  intros Hp Hm Hnd Hts H.
  assert (Ht : text_box elems (fresh_content elems 1 gap) (box_marks elems)) by (split; [reflexivity|]; split; [reflexivity|]; split; [exact Hp|]; reflexivity).
  exact (doc_pages_ok elems fuel rs k _ _ c ps ks ts Ht eq_refl Hm Hnd Hts H).
Qed.
End Pages.
Print Assumptions C52_names.
Print Assumptions C52_page_partial.
Print Assumptions C52_text_partial.

(** ** Examples *)

(** Paragraphs given by the marks of each of their lines, of height 10; they are
    whole, and the lines that are left.  Each footnote takes a height of 8. *)
Definition fx_start (e : list (list nat)) : res (list (list nat) * list (list nat)) := Ok (e, e).
Definition fx_crun (k : ctx) (o : list (list nat) * list (list nat)) (x y w h : Q) : res ((list (list nat) * list (list nat)) * Q * bool * list (list nat) * list nat) :=
  let n := Nat.min (length (snd o)) (Z.to_nat (Qfloor (h / 10))) in
  Ok ((fst o, skipn n (snd o)), (10 * inject_Z (Z.of_nat n))%Q, length (snd o) =? n, [concat (firstn n (snd o))], []).
Definition fx_restore (o : list (list nat) * list (list nat)) (s : list (list nat)) := (fst o, s).
Definition fx_ids (p : list nat) : list (str * nat) := (lit "x", 2) :: map (fun k => (name_of k, 1)) p.
Definition fx_height (l : list (str * nat)) : res Q := Ok (8 * inject_Z (Z.of_nat (length l)))%Q.
Definition fx_lmarks (e : list (list nat)) : list str := map name_of (concat e).
Definition fx_add (fn : list nat) := add_content fx_start fx_crun snd fx_restore fx_ids fx_height fn.
Definition fx_pages (fn : list nat) := doc_pages fx_start fx_crun snd fx_restore fx_ids fx_height fn.

Lemma fx_part_marks l : part_marks fx_ids [l] = map name_of l.
Proof.
  unfold part_marks, shown_marks. cbn [flat_map]. rewrite app_nil_r. unfold fx_ids. cbn [filter fst snd].
  change (starts mark (lit "x")) with false. rewrite Bool.andb_false_r.
  induction l as [|k l IH]; [reflexivity|]. cbn [map filter fst snd]. rewrite name_starts. cbn [Nat.eqb negb andb map fst]. f_equal. exact IH.
Qed.
Lemma fx_shorter k k' : shorter fx_ids (fx_crun k) (fx_crun k').
Proof.
  intros [o1 o2] x y w hA hB oA htA finA psA lsA oB htB finB psB lsB Hh HA HB. unfold fx_crun in HA, HB. cbn [fst snd] in HA, HB.
  assert (Hz : (Qfloor (hB / 10) <= Qfloor (hA / 10))%Z) by (apply Qfloor_resp_le; unfold Qdiv; apply Qmult_le_compat_r; [exact Hh|discriminate]).
  remember (Nat.min (length o2) (Z.to_nat (Qfloor (hA / 10)))) as nA eqn:EA. remember (Nat.min (length o2) (Z.to_nat (Qfloor (hB / 10)))) as nB eqn:EB.
  assert (HnAB : nB <= nA <= length o2) by lia.
  injection HA as _ <- <- <- _. injection HB as _ <- <- <- _. rewrite !fx_part_marks. destruct (Nat.eqb_spec (length o2) nB) as [E|E].
  - assert (nA = nB) by lia. subst nA. split; [apply Nat.eqb_eq; lia|]. replace nB with (Nat.min (length o2) (Z.to_nat (Qfloor (hA / 10)))) by lia. split; reflexivity.
  - exists (map name_of (concat (firstn (nA - nB) (skipn nB o2)))). rewrite <- map_app, <- concat_app. do 2 f_equal.
    rewrite <- (firstn_skipn nB (firstn nA o2)) at 1. rewrite firstn_firstn, Nat.min_l by lia. f_equal. apply skipn_firstn_comm.
Qed.

Definition fx_style : style := mkStyle 0 0 0 5 None false PNormal.
Definition fx_k0 : ctx := map (fun k => (name_of k, lit "0")) [0; 1; 2; 3; 4].
(** Two paragraphs with five marks, and pages of different heights: the first
    pass of the first page has room for three of the marks, but with their
    footnotes there is room for one only. *)
Definition fx_text : list (@elem (list (list nat))) := [Leaf fx_style [[0]; []; [1]]; Leaf fx_style [[]; [2]; []; [3; 4]]].
Example C52_text_applies :
  (forall k o x y w h o' ht fin ps ls, fx_crun k o x y w h = Ok (o', ht, fin, ps, ls) -> fst o' = fst o) /\
  (forall o sv, fst (fx_restore o sv) = fst o) /\ (forall o o' sv, fst o = fst o' -> fx_restore o sv = fx_restore o' sv) /\
  (forall o, fx_restore o (snd o) = o) /\ (forall e o, fx_start e = Ok o -> fx_lmarks (snd o) = fx_lmarks e) /\
  (forall k o x y w h o' ht fin ps ls, fx_crun k o x y w h = Ok (o', ht, fin, ps, ls) ->
     fx_lmarks (snd o) = part_marks fx_ids ps ++ fx_lmarks (snd o') /\ (fin = true -> fx_lmarks (snd o') = [])) /\
  (forall k k', shorter fx_ids (fx_crun k) (fx_crun k')) /\ (forall l q, fx_height l = Ok q -> (0 <= q)%Q) /\
  Forall is_paragraph fx_text /\ box_marks fx_lmarks fx_text = map name_of [0; 1; 2; 3; 4] /\
  match fx_pages [10; 11; 12; 13; 14] 20 [mkPrect 0 800 500 60; mkPrect 0 800 500 90; mkPrect 0 800 500 70] fx_k0 (fresh_content fx_text 1 None) with
  | Done (c, ps) => c_finished c = true /\
      map (fun p => (marks_shown fx_ids p, sh_notes p)) ps =
        [([(name_of 0, lit "1")], [(lit "1 ", 10)]);
         ([(name_of 1, lit "1"); (name_of 2, lit "2")], [(lit "1 ", 11); (lit "2 ", 12)]);
         ([(name_of 3, lit "1"); (name_of 4, lit "2")], [(lit "1 ", 13); (lit "2 ", 14)])]
  | _ => False
  end.
Proof.
  split; [intros k o x y w h o' ht fin ps ls H; unfold fx_crun in H; remember (skipn _ _); injection H as <- _ _ _ _; reflexivity|].
  split; [reflexivity|]. split; [intros o o' sv H; unfold fx_restore; congruence|]. split; [intros []; reflexivity|].
  split; [intros e o H; injection H as <-; reflexivity|].
  split.
  { intros k [o1 o2] x y w h o' ht fin ps ls H. unfold fx_crun in H. cbn [fst snd] in H.
    remember (Nat.min (length o2) (Z.to_nat (Qfloor (h / 10)))) as n eqn:En. injection H as <- _ <- <- _. cbn [snd]. rewrite fx_part_marks. unfold fx_lmarks.
    rewrite <- map_app, <- concat_app, firstn_skipn. split; [reflexivity|]. intros X. apply Nat.eqb_eq in X. rewrite <- X, skipn_all. reflexivity. }
  split; [exact fx_shorter|].
  split; [intros l q H; injection H as <-; assert (X : (inject_Z 0 <= inject_Z (Z.of_nat (length l)))%Q) by (rewrite <- Zle_Qle; lia); change (inject_Z 0) with 0%Q in X; lra|].
  split; [repeat constructor|]. split; [reflexivity|]. vm_compute. auto.
Qed.

(** A group of four lines, with a mark, and a paragraph with another: the group
    fits in the first pass but not above the footnotes, so it goes to the next
    page; the mark of the paragraph shows 2, and its footnote has the number 1. *)
Definition fx_group : list (@elem (list (list nat))) := [Group fx_style 0 [GLeaf fx_style [[0]; []; []; []]]; Leaf fx_style [[1]]].
Theorem C52_refuted : ~ (forall fn elems fuel x y w h k c k' p, fx_add fn fuel x y w h k (fresh_content elems 1 None) = Done (c, k', p) ->
  exists ks, page_with fx_ids fn ks p).
Proof.
  intros H.
  assert (E : match fx_add [10; 11] 20 0 800 500 60 fx_k0 (fresh_content fx_group 1 None) with
     | Done (_, _, p) => marks_shown fx_ids p = [(name_of 1, lit "2")] /\ sh_notes p = [(lit "1 ", 11)]
     | _ => False end) by (vm_compute; auto).
  destruct (fx_add [10; 11] 20 0 800 500 60 fx_k0 (fresh_content fx_group 1 None)) as [[[c k'] p]| |] eqn:Ea; try contradiction.
  destruct E as [E1 E2]. destruct (H _ _ _ _ _ _ _ _ _ _ _ Ea) as (ks & ts & _ & H1 & _). rewrite E1 in H1.
  destruct ks as [|a [|b ks]]; cbn [count map fst snd] in H1; try discriminate.
Qed.
Print Assumptions C52_refuted.
