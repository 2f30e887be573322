(** The place of the footnotes of a page (C81). *)
From Coq Require Import String QArith Qround Qabs ZArith Lia Lqa List.
From Verif Require Import Py PyStr Parser StreamProofs Ranges Base Table Content ContentFlow ContentGeom ContentState ContentBalance ContentTame PContent PState PBottom Footnotes FootnotesProofs FootnotesFlat FootnotesText PFootnotes NotesPlace.
Import ListNotations.
Open Scope list_scope.
Open Scope nat_scope.

(** ** The section and the footnotes *)
Section Apart.
Context {E O S P L K T NE NO NS NP NL : Type}.
Variable round3 : Q -> Q.
Variable start : E -> res O.
Variable crun : ctx -> O -> Q -> Q -> Q -> Q -> res (O * Q * bool * list P * list L).
Variable save : O -> S.
Variable restore : O -> S -> O.
Variable ids_of : P -> list (str * nat).
Variable nstart : NE -> res NO.
Variable ncrun : NO -> Q -> Q -> Q -> Q -> res (NO * Q * bool * list NP * list NL).
Variable nsave : NO -> NS.
Variable nrestore : NO -> NS -> NO.
Variable nelem : str * T -> @elem NE.
Variable fn : list T.
Variable kind : O -> K.
Hypothesis near : forall q, (Qabs (round3 q - q) <= 1#2000)%Q.
Hypothesis fits : forall k o x y w h o' ht fin ps ls, crun k o x y w h = Ok (o', ht, fin, ps, ls) -> (0 < ht)%Q -> (ht <= h)%Q.
Hypothesis kind_run : forall k o x y w h o' ht fin ps ls, crun k o x y w h = Ok (o', ht, fin, ps, ls) -> kind o' = kind o.
Hypothesis kind_restore : forall o sv, kind (restore o sv) = kind o.
Hypothesis same_restore : forall o o' sv, kind o = kind o' -> restore o sv = restore o' sv.
Hypothesis run_same : forall k o x y y' w h h' o1 ht fin ps ls o1' ht' fin' ps' ls', (y' == y)%Q -> (h' == h)%Q ->
  crun k o x y w h = Ok (o1, ht, fin, ps, ls) -> crun k o x y' w h' = Ok (o1', ht', fin', ps', ls') -> (ht' == ht)%Q /\ fin' = fin /\ save o1' = save o1.
Hypothesis nfits : forall o x y w h o' ht fin ps ls, ncrun o x y w h = Ok (o', ht, fin, ps, ls) -> (0 < ht)%Q -> (ht <= h)%Q.
Variables (elems : list (@elem E)) (cols : nat) (gap : option Q) (St NSt : style -> Prop).
Hypothesis St_ok : forall s, St s -> (0 <= s_mt s /\ 0 <= s_mb s /\ match s_min s with Some m => 0 < m | None => True end)%Q.
Hypothesis NSt_ok : forall s, NSt s -> (0 <= s_mt s /\ 0 <= s_mb s /\ match s_min s with Some m => 0 < m | None => True end)%Q.
Hypothesis els_ok : okels St False elems.
Hypothesis els_shape : shape cols elems.
Hypothesis nels_ok : forall l, okels NSt False (map nelem l).
Notation content := (@content E O S).
Notation place_page := (place_page round3 start crun save restore ids_of nstart ncrun nsave nrestore nelem fn).
Notation place_pages := (place_pages round3 start crun save restore ids_of nstart ncrun nsave nrestore nelem fn).
Notation footed := (@footed O P L NO NP NL).

Definition stays (c : content) : Prop := rests elems cols gap St c /\ keeps kind c.
Definition roomy (r : rect) : Prop := room elems cols gap St r /\ forall l, room (map nelem l) 1 None NSt r.
(** The section ends at least 10 above the top of the footnotes, with the line
    in the middle; or at the bottom of the page. *)
Definition footed_ok (r : rect) (p : footed) : Prop :=
  match ft_notes p with
  | None => forall q, In q (o_parts (ft_out p)) -> (0 < p_height q)%Q -> (rc_y r - rc_h r <= p_top q - p_height q)%Q
  | Some (top, rule, n) =>
      (forall q, In q (o_parts (ft_out p)) -> (0 < p_height q)%Q -> (top + 10 <= p_top q - p_height q)%Q) /\
      (Qabs (rule - (top + 5)) <= 1#2000)%Q /\
      (forall q, In q (o_parts n) -> (p_top q <= top)%Q)
  end.

Lemma run_stays k fuel r c c' o : roomy r -> stays c -> run start (crun k) save restore fuel (rc_x r) (rc_y r) (rc_w r) (rc_h r) c = Done (c', o) ->
  stays c' /\ ext kind (c_heap c) (c_heap c') /\ Forall (low (rc_y r - rc_h r)) (o_parts o) /\ exists f, c_part c' = Some f.
Proof.
  intros [Hr _] [H1 H2] H.
  destruct (run_inside start (crun k) save restore (fits k) elems cols gap St False St_ok els_ok ltac:(tauto) fuel r c c' o Hr H1 H) as [_ I2].
  destruct (run_bottom start (crun k) save restore kind (fits k) (kind_run k) kind_restore same_restore (run_same k) elems cols gap St St_ok els_ok els_shape fuel r c c' o Hr H1 H2 H) as (B1 & B2 & B3).
  split; [split; assumption|]. split; [exact B3|]. split; [exact B1|].
  unfold run in H. match type of H with abind ?e _ = _ => destruct e; cbn [abind] in H; try discriminate end.
  match type of H with abind ?e _ = _ => destruct e as [[act [[f1 anc1] g1]]| |]; cbn [abind] in H; try discriminate end. injection H as <- _. eexists. reflexivity.
Qed.
Lemma notes_top fuel r r' l c o c' o' : roomy r -> rc_x r' = rc_x r -> rc_w r' = rc_w r ->
  run nstart ncrun nsave nrestore fuel (rc_x r) (rc_y r) (rc_w r) (rc_h r) (notes_box nelem l) = Done (c, o) ->
  run nstart ncrun nsave nrestore fuel (rc_x r') (rc_y r') (rc_w r') (rc_h r') c = Done (c', o') -> forall q, In q (o_parts o') -> (p_top q <= rc_y r')%Q.
Proof.
  intros [_ Hr] Hx Hw H1 H2 q Hq.
  assert (H0 : rests (map nelem (numbered 0 l)) 1 None NSt (@notes_box T NE NO NS nelem l)) by repeat split.
  destruct (run_inside nstart ncrun nsave nrestore nfits (map nelem (numbered 0 l)) 1 None NSt False NSt_ok (nels_ok _) ltac:(tauto) fuel r _ _ _ (Hr _) H0 H1) as [_ I].
  assert (Hr' : room (map nelem (numbered 0 l)) 1 None NSt r') by (unfold room in *; rewrite Hx, Hw; apply Hr).
  destruct (run_inside nstart ncrun nsave nrestore nfits (map nelem (numbered 0 l)) 1 None NSt False NSt_ok (nels_ok _) ltac:(tauto) fuel r' _ _ _ Hr' I H2) as [I2 _].
  pose proof (proj1 (Forall_forall _ _) I2 q Hq) as Hi. unfold within, inside in Hi.
  destruct q as [s x y w h b a ht fin parts|s x y w h iw ih]; destruct Hi as (l' & left & cw & _ & _ & Hi); cbn [p_top]; apply Hi.
Qed.
Lemma notes_high fuel r l c o : roomy r -> run nstart ncrun nsave nrestore fuel (rc_x r) (rc_y r) (rc_w r) (rc_h r) (notes_box nelem l) = Done (c, o) -> (0 <= o_height o)%Q.
Proof.
  intros [_ Hr] H. assert (H0 : rests (map nelem (numbered 0 l)) 1 None NSt (@notes_box T NE NO NS nelem l)) by repeat split.
  destruct (run_within nstart ncrun nsave nrestore nfits (map nelem (numbered 0 l)) 1 None NSt False NSt_ok (nels_ok _) ltac:(tauto) fuel r _ _ _ (Hr _) H0 H) as (_ & _ & I). exact (I eq_refl).
Qed.
Lemma page_apart fuel r k c c' k' p : roomy r -> stays c -> place_page fuel (rc_x r) (rc_y r) (rc_w r) (rc_h r) k c = Done (c', k', p) ->
  stays c' /\ footed_ok r p.
Proof.
  intros Hr Hc. unfold NotesPlace.place_page.
  match goal with |- abind ?e _ = _ -> _ => destruct e as [st| |] eqn:Est end; cbn [abind]; try discriminate.
  destruct (run start (crun k) save restore fuel (rc_x r) (rc_y r) (rc_w r) (rc_h r) c) as [[c1 out1]| |] eqn:E1; cbn [abind]; try discriminate.
  destruct (run_stays _ _ _ _ _ _ Hr Hc E1) as (Hc1 & Hx1 & Hl1 & f1 & Hf1).
  destruct (check_ids fn k [] (page_ids ids_of out1)) as [[k1 notes1]|]; cbn [lift abind]; [|discriminate].
  destruct notes1 as [|t1 notes1].
  { intros H. injection H as <- <- <-. split; [exact Hc1|]. intros q Hq. exact (proj1 (Forall_forall _ _) Hl1 q Hq). }
  destruct (run nstart ncrun nsave nrestore fuel (rc_x r) (rc_y r) (rc_w r) (rc_h r) (notes_box nelem (t1 :: notes1))) as [[b1 n1]| |] eqn:E2; cbn [abind]; try discriminate.
  destruct (Qle_bool (rc_h r - 10 - 20) (o_height n1)); [discriminate|]. unfold set_state. rewrite Hf1. destruct st as [[i d] m]. cbn [abind c_elems c_cols c_gap c_part c_heap c_tries].
  set (c2 := mkC _ _ _ _ _ _ _).
  assert (Hc2 : stays c2).
  { destruct Hc1 as [(A1 & A2 & A3 & A4) B]. destruct Hc as [(D1 & D2 & D3 & D4) F]. unfold keeps in *. rewrite Hf1 in *. destruct A4 as (A4 & A5 & A6 & _ & _ & A9). destruct B as (B1 & _ & _).
    assert (Hst : Forall (okd St) d /\ okm St m /\ vd kind (c_heap c) d /\ vm kind (c_heap c) m).
    { destruct (c_part c) as [f|] eqn:Ec.
      - unfold get_state in Est. rewrite Ec in Est. injection Est as <- <- <-. split; [apply D4|]. split; [apply D4|]. split; apply F.
      - injection Est as <- <- <-. repeat split; constructor. }
    destruct Hst as (S1 & S2 & S3 & S4). split.
    - split; [exact A1|]. split; [exact A2|]. split; [exact A3|]. cbn [c2 c_part with_section f_elems f_cols f_gapspec f_sdelayed f_memory f_partial]. auto 10.
    - unfold keeps. cbn [c2 c_part c_heap with_section f_partial f_sdelayed f_memory]. split; [exact B1|]. split; [eapply vd_ext; eassumption|eapply vm_ext; eassumption]. }
  destruct (run start (crun k1) save restore fuel (rc_x r) (rc_y r) (rc_w r) (rc_h r - o_height n1 - 10) c2) as [[c3 out3]| |] eqn:E3; cbn [abind]; try discriminate.
  assert (Hr2 : roomy (mkRect (rc_x r) (rc_y r) (rc_w r) (rc_h r - o_height n1 - 10))) by (destruct Hr; split; assumption).
  destruct (run_stays k1 fuel _ _ _ _ Hr2 Hc2 E3) as (Hc3 & _ & Hl3 & _). cbn [rc_y rc_h] in Hl3.
  destruct (check_ids fn k1 [] (page_ids ids_of out3)) as [[k3 notes3]|]; cbn [lift abind]; [|discriminate].
  destruct notes3 as [|t3 notes3].
  { intros H. injection H as <- <- <-. split; [exact Hc3|]. intros q Hq Hh. pose proof (proj1 (Forall_forall _ _) Hl3 q Hq Hh).
    assert (0 <= o_height n1)%Q by exact (notes_high fuel r _ _ _ Hr E2). lra. }
  destruct (run nstart ncrun nsave nrestore fuel (rc_x r) (rc_y r) (rc_w r) (rc_h r) (notes_box nelem (t3 :: notes3))) as [[b3 n3]| |] eqn:E4; cbn [abind]; try discriminate.
  destruct (run nstart ncrun nsave nrestore fuel (rc_x r) (rc_y r - rc_h r + o_height n1) (rc_w r) (rc_h r) b3) as [[b4 n4]| |] eqn:E5; cbn [abind]; try discriminate.
  intros H. injection H as <- <- <-. split; [exact Hc3|]. unfold footed_ok. cbn [ft_notes ft_out]. split.
  - intros q Hq Hh. pose proof (proj1 (Forall_forall _ _) Hl3 q Hq Hh). lra.
  - split; [setoid_replace (rc_y r - rc_h r + o_height n1 + 5)%Q with (rc_y r - rc_h r + o_height n1 + 10 / 2)%Q by field; apply near|].
    exact (notes_top fuel r (mkRect (rc_x r) (rc_y r - rc_h r + o_height n1) (rc_w r) (rc_h r)) _ _ _ _ _ Hr eq_refl eq_refl E4 E5).
Qed.
Lemma pages_apart fuel : forall rs k c c' ps, Forall roomy rs -> stays c -> place_pages fuel rs k c = Done (c', ps) -> Forall2 footed_ok (firstn (length ps) rs) ps.
Proof.
  induction rs as [|r rs IH]; intros k c c' ps Hr Hc; cbn [NotesPlace.place_pages].
  - intros H. injection H as <- <-. constructor.
  - destruct (c_finished c); [intros H; injection H as <- <-; constructor|].
    destruct (place_page fuel (rc_x r) (rc_y r) (rc_w r) (rc_h r) k c) as [[[c1 k1] p]| |] eqn:E1; cbn [abind]; try discriminate.
    destruct (place_pages fuel rs k1 c1) as [[c2 qs]| |] eqn:E2; cbn [abind]; try discriminate.
    intros H. injection H as <- <-. inversion Hr as [|r0 rs0 Hr1 Hr2]; subst. destruct (page_apart _ _ _ _ _ _ _ Hr1 Hc E1) as [P1 P2]. cbn [length firstn]. constructor; [exact P2|]. exact (IH _ _ _ _ Hr2 P1 E2).
Qed.
End Apart.

(** The pages of a section of one column, with boxes of one column inside at any
    depth and boxes of several columns in them, or of several columns without
    boxes.  On a page with footnotes, the section stays 10 above them, and the
    line is in the middle of that; on the other pages it stays above the bottom
    margin. *)
Theorem C81_apart_partial {E O S P L K T NE NO NS NP NL : Type} (round3 : Q -> Q) (start : E -> res O) (crun : ctx -> O -> Q -> Q -> Q -> Q -> res (O * Q * bool * list P * list L)) (save : O -> S) (restore : O -> S -> O)
  (ids_of : P -> list (str * nat)) (nstart : NE -> res NO) (ncrun : NO -> Q -> Q -> Q -> Q -> res (NO * Q * bool * list NP * list NL)) (nsave : NO -> NS) (nrestore : NO -> NS -> NO) (nelem : str * T -> @elem NE) (fn : list T) (kind : O -> K)
  elems cols gap (St NSt : style -> Prop) fuel rs k c ps :
  (forall q, (Qabs (round3 q - q) <= 1#2000)%Q) ->
  (forall k o x y w h o' ht fin ps ls, crun k o x y w h = Ok (o', ht, fin, ps, ls) -> (0 < ht)%Q -> (ht <= h)%Q) ->
  (forall k o x y w h o' ht fin ps ls, crun k o x y w h = Ok (o', ht, fin, ps, ls) -> kind o' = kind o) ->
  (forall o sv, kind (restore o sv) = kind o) -> (forall o o' sv, kind o = kind o' -> restore o sv = restore o' sv) ->
  (forall k o x y y' w h h' o1 ht fin ps ls o1' ht' fin' ps' ls', (y' == y)%Q -> (h' == h)%Q ->
    crun k o x y w h = Ok (o1, ht, fin, ps, ls) -> crun k o x y' w h' = Ok (o1', ht', fin', ps', ls') -> (ht' == ht)%Q /\ fin' = fin /\ save o1' = save o1) ->
  (forall o x y w h o' ht fin ps ls, ncrun o x y w h = Ok (o', ht, fin, ps, ls) -> (0 < ht)%Q -> (ht <= h)%Q) ->
  (forall s, St s \/ NSt s -> (0 <= s_mt s /\ 0 <= s_mb s /\ match s_min s with Some m => 0 < m | None => True end)%Q) ->
  okels St False elems -> shape cols elems -> (forall l, okels NSt False (map nelem l)) ->
  Forall (fun r => room elems cols gap St r /\ forall l, room (map nelem l) 1 None NSt r) rs ->
  place_pages round3 start crun save restore ids_of nstart ncrun nsave nrestore nelem fn fuel rs k (fresh_content elems cols gap) = Done (c, ps) ->
  Forall2 (fun r p =>
    match ft_notes p with
    | None => forall q, In q (o_parts (ft_out p)) -> (0 < p_height q)%Q -> (rc_y r - rc_h r <= p_top q - p_height q)%Q
    | Some (top, rule, n) =>
        (forall q, In q (o_parts (ft_out p)) -> (0 < p_height q)%Q -> (top + 10 <= p_top q - p_height q)%Q) /\
        (Qabs (rule - (top + 5)) <= 1#2000)%Q /\
        (forall q, In q (o_parts n) -> (p_top q <= top)%Q)
    end) (firstn (length ps) rs) ps.
Proof.
  intros H1 H2 H3 H4 H5 H6 H7 H8 H9 H10 H11 H12 H13.
  refine (pages_apart round3 start crun save restore ids_of nstart ncrun nsave nrestore nelem fn kind H1 H2 H3 H4 H5 H6 H7 elems cols gap St NSt _ _ H9 H10 H11 fuel rs k _ c ps H12 _ H13).
  - intros s Hs. apply H8. auto.
  - intros s Hs. apply H8. auto.
  - split; [repeat split|exact I].
Qed.
Print Assumptions C81_apart_partial.


(** ** The footnotes of paragraphs *)
Section Text.
Context {E O S P L K T NE NO NS NP NL : Type}.
Variable round3 : Q -> Q.
Variable start : E -> res O.
Variable crun : ctx -> O -> Q -> Q -> Q -> Q -> res (O * Q * bool * list P * list L).
Variable save : O -> S.
Variable restore : O -> S -> O.
Variable ids_of : P -> list (str * nat).
Variable nstart : NE -> res NO.
Variable ncrun : NO -> Q -> Q -> Q -> Q -> res (NO * Q * bool * list NP * list NL).
Variable nsave : NO -> NS.
Variable nrestore : NO -> NS -> NO.
(** Each footnote is a paragraph or a table, with its style. *)
Variable nstyle : str * T -> style.
Variable nleaf : str * T -> NE.
Variable fn : list T.
Variable kind : O -> K.
Variable lmarks : E -> list str.
Variable left_of : O -> list str.
Hypothesis kind_run : forall k o x y w h o' ht fin ps ls, crun k o x y w h = Ok (o', ht, fin, ps, ls) -> kind o' = kind o.
Hypothesis kind_restore : forall o sv, kind (restore o sv) = kind o.
Hypothesis same_restore : forall o o' sv, kind o = kind o' -> restore o sv = restore o' sv.
Hypothesis save_ok : forall o, restore o (save o) = o.
Hypothesis left_start : forall e o, start e = Ok o -> left_of o = lmarks e.
Hypothesis left_run : forall k o x y w h o' ht fin ps ls, crun k o x y w h = Ok (o', ht, fin, ps, ls) ->
  left_of o = part_marks ids_of ps ++ left_of o' /\ (fin = true -> left_of o' = []).
Hypothesis less_height : forall k k', shorter ids_of (crun k) (crun k').
Variables mtop mbot tall : Q.
Hypothesis small : (0 <= mtop /\ 0 <= mbot /\ tall + mtop + mbot <= 30)%Q.
Hypothesis low_lines : forall o x y w h o' ht ps ls, ncrun o x y w h = Ok (o', ht, false, ps, ls) -> (h - ht < tall)%Q.
Hypothesis margins : forall n, (0 <= s_mt (nstyle n) <= mtop /\ 0 <= s_mb (nstyle n) <= mbot)%Q.
Hypothesis run_moved : forall o x y y' w h h' o1 ht fin ps ls, (h' == h)%Q -> ncrun o x y w h = Ok (o1, ht, fin, ps, ls) ->
  exists o2 ht' ps' ls', ncrun o x y' w h' = Ok (o2, ht', fin, ps', ls') /\ (ht' == ht)%Q.
Notation elem := (@elem E).
Notation content := (@content E O S).
Definition nel (n : str * T) : @Content.elem NE := Leaf (nstyle n) (nleaf n).
Notation nrun := (run nstart ncrun nsave nrestore).
Notation place_page := (place_page round3 start crun save restore ids_of nstart ncrun nsave nrestore nel fn).
Notation place_pages := (place_pages round3 start crun save restore ids_of nstart ncrun nsave nrestore nel fn).
Notation footed := (@footed O P L NO NP NL).
Notation text_box := (text_box (E := E) (S := S) restore lmarks left_of).

(** A page with the marks [ks] of the footnotes [ts]: all the footnotes are
    shown, whole, with their numbers, between where they begin and the bottom
    margin. *)
Definition page_notes (r : rect) (ks : list nat) (p : footed) : Prop :=
  exists ts, map (nth_error fn) ks = map Some ts /\ shown_marks (page_ids ids_of (ft_out p)) = map name_of ks /\
    match ft_notes p with
    | None => ks = []
    | Some (top, rule, n) =>
        Forall2 (fun t q => exists x y w h o o' ht qs, nstart (nleaf t) = Ok o /\ q = PlLeaf (nstyle t) x y w h o o' ht true qs)
          (map (fun x => (dec_Z (Z.of_nat (fst x)) ++ lit " ", snd x)) (count 1 ts)) (o_parts n) /\
        (forall q, In q (o_parts n) -> (p_top q <= top)%Q /\ ((0 < p_height q)%Q -> (rc_y r - rc_h r <= p_top q - p_height q)%Q))
    end.

Definition pair_of (n : str * T) : style * NE := (nstyle n, nleaf n).
Lemma box_leaves l : map nel (numbered 0 l) = leaves (map pair_of (numbered 0 l)).
Proof. unfold leaves. rewrite map_map. reflexivity. Qed.
Lemma good_notes l : Forall (fun p => good mtop mbot (fst p)) (map pair_of l).
Proof. apply Forall_forall. intros p H. apply in_map_iff in H as (n & <- & _). exact (margins n). Qed.
Lemma numbered_prefix (a b : list T) : forall k, exists r, numbered k (a ++ b) = numbered k a ++ r.
Proof. induction a as [|x a IH]; intros k; cbn [app numbered]; [exists (numbered k b); reflexivity|]. destruct (IH (Datatypes.S k)) as [r ->]. exists r. reflexivity. Qed.
(** The height of the footnotes, for Footnotes.v. *)
Definition height_of (fuel : nat) (x y w h : Q) (l : list (str * T)) : res Q :=
  match nrun fuel x y w h (fresh_content (map nel l) 1 None) with Done (_, o) => Ok (o_height o) | _ => Err PyException end.
Lemma height_pos fuel x y w h l q : height_of fuel x y w h l = Ok q -> (0 <= q)%Q.
Proof.
  unfold height_of. destruct (nrun fuel x y w h (fresh_content (map nel l) 1 None)) as [[c o]| |] eqn:E0; try discriminate. intros H. injection H as <-.
  apply (run_leaves _ _ _ _ mtop mbot tall small low_lines fuel (map pair_of l)) in E0; [apply E0| |apply good_notes].
  split; [unfold leaves; rewrite map_map; reflexivity|]. repeat split.
Qed.

Lemma names_inj a : forall b, map name_of a = map name_of b -> a = b.
Proof. induction a as [|x a IH]; intros [|y b] H; try discriminate; [reflexivity|]. cbn [map] in H. injection H as H1 H2. f_equal; [apply name_inj; unfold name_of; congruence|apply IH; exact H2]. Qed.
Lemma map_split {A B} (f : A -> B) l : forall a b, map f l = a ++ b -> exists la lb, l = la ++ lb /\ a = map f la /\ b = map f lb.
Proof.
  intros a b X. exists (firstn (length a) l), (skipn (length a) l). split; [symmetry; apply firstn_skipn|].
  rewrite <- firstn_map, <- skipn_map, X. rewrite firstn_app, skipn_app, Nat.sub_diag, firstn_all, skipn_all. cbn. rewrite app_nil_r. auto.
Qed.

Lemma page_text elems fuel r k c ks ts c' k' p : text_box elems c (map name_of ks) -> c_finished c = false -> map (nth_error fn) ks = map Some ts ->
  place_page fuel (rc_x r) (rc_y r) (rc_w r) (rc_h r) k c = Done (c', k', p) ->
  exists ka kb ta tb, ks = ka ++ kb /\ ts = ta ++ tb /\ map (nth_error fn) ka = map Some ta /\ map (nth_error fn) kb = map Some tb /\ page_notes r ka p /\
    (if c_finished c' then kb = [] else text_box elems c' (map name_of kb)).
Proof.
  intros Ht Hfin Hts H.
  assert (Hadd : exists q, Footnotes.add_content start crun save restore ids_of (height_of fuel (rc_x r) (rc_y r) (rc_w r) (rc_h r)) fn fuel (rc_x r) (rc_y r) (rc_w r) (rc_h r) k c = Done (c', k', q) /\ sh_out q = ft_out p).
  { revert H. unfold NotesPlace.place_page, Footnotes.add_content.
    match goal with |- abind ?e _ = _ -> _ => destruct e as [st| |] eqn:Est end; cbn [abind]; try discriminate.
    destruct (run start (crun k) save restore fuel (rc_x r) (rc_y r) (rc_w r) (rc_h r) c) as [[c1 out1]| |]; cbn [abind]; try discriminate.
    destruct (check_ids fn k [] (page_ids ids_of out1)) as [[k1 notes1]|]; cbn [lift abind]; [|discriminate].
    destruct notes1 as [|t1 notes1]; [intros H; injection H as <- <- <-; eexists; split; reflexivity|].
    unfold height_of at 1. unfold notes_box at 1.
    destruct (nrun fuel (rc_x r) (rc_y r) (rc_w r) (rc_h r) (fresh_content (map nel (numbered 0 (t1 :: notes1))) 1 None)) as [[b1 n1]| |]; cbn [lift abind]; try discriminate.
    destruct (Qle_bool (rc_h r - 10 - 20) (o_height n1)); [discriminate|]. destruct (set_state st c1) as [c2| |]; cbn [abind]; try discriminate.
    match goal with |- context [run start (crun k1) save restore fuel ?a ?b ?d ?e ?f] => destruct (run start (crun k1) save restore fuel a b d e f) as [[c3 out3]| |] end; cbn [abind]; try discriminate.
    destruct (check_ids fn k1 [] (page_ids ids_of out3)) as [[k3 notes3]|]; cbn [lift abind]; [|discriminate].
    destruct notes3 as [|t3 notes3]; [intros H; injection H as <- <- <-; eexists; split; reflexivity|].
    unfold height_of, notes_box.
    destruct (nrun fuel (rc_x r) (rc_y r) (rc_w r) (rc_h r) (fresh_content (map nel (numbered 0 (t3 :: notes3))) 1 None)) as [[b3 n3]| |]; cbn [lift abind]; try discriminate.
    match goal with |- context [nrun fuel ?a ?b ?d ?e b3] => destruct (nrun fuel a b d e b3) as [[b4 n4]| |] end; cbn [abind]; try discriminate.
    intros H. injection H as <- <- <-. eexists. split; reflexivity. }
  destruct Hadd as (q & Hadd & Hq).
  destruct (page_acc start crun save restore ids_of (height_of fuel (rc_x r) (rc_y r) (rc_w r) (rc_h r)) fn kind lmarks left_of kind_run kind_restore same_restore save_ok left_start left_run less_height
    (fun l q => height_pos fuel (rc_x r) (rc_y r) (rc_w r) (rc_h r) l q) _ _ _ _ _ _ _ _ _ _ _ _ Ht Hfin Hadd) as (t' & c1 & out1 & M1 & M2 & M3 & M4 & M5).
  unfold page_marks in M1, M4. rewrite Hq in M1, M4.
  destruct M5 as [tA M5]. destruct (map_split _ _ _ _ M1) as (ka & kb & Eab & Ea & Eb). destruct (map_split _ _ _ _ M5) as (ka2 & kb2 & Eab2 & Ea2 & _).
  assert (Hsplit : forall a b, ks = a ++ b -> exists ta tb, ts = ta ++ tb /\ map (nth_error fn) a = map Some ta /\ map (nth_error fn) b = map Some tb).
  { intros a b X. rewrite X, map_app in Hts. symmetry in Hts. destruct (map_split _ _ _ _ Hts) as (ta & tb & X1 & X2 & X3). eauto. }
  destruct (Hsplit _ _ Eab) as (ta & tb & Et & Eta & Etb). destruct (Hsplit _ _ Eab2) as (ta2 & tb2 & _ & Eta2 & _).
  assert (Hpre : exists rest, ta2 = ta ++ rest).
  { destruct M4 as [z M4]. rewrite Ea, Ea2 in M4. destruct (map_split _ _ _ _ M4) as (l1 & l2 & L1 & L2 & _). apply names_inj in L2. subst l1. rewrite L1, map_app in Eta2. symmetry in Eta2.
    destruct (map_split _ _ _ _ Eta2) as (x1 & x2 & X1 & X2 & _). rewrite Eta in X2. assert (ta = x1) by (clear - X2; revert x1 X2; induction ta as [|a l IH]; intros [|b x] H; try discriminate; [reflexivity|]; cbn [map] in H; injection H as -> H; f_equal; apply IH; exact H).
    subst x1. exists x2. exact X1. }
  exists ka, kb, ta, tb. split; [exact Eab|]. split; [exact Et|]. split; [exact Eta|]. split; [exact Etb|]. split; [|rewrite Eb in M2; destruct (c_finished c'); [destruct kb; [reflexivity|discriminate]|exact M2]].
  exists ta. split; [exact Eta|]. split; [exact Ea|]. revert H. unfold NotesPlace.place_page.
  match goal with |- abind ?e _ = _ -> _ => destruct e as [st| |] eqn:Est end; cbn [abind]; try discriminate. rewrite M3. cbn [abind].
  rewrite (check_ids_ok fn _ _ _ [] _ Ea2 Eta2). cbn [lift abind app].
  assert (Hnil : ta = [] -> ka = []) by (intros ->; destruct ka; [reflexivity|discriminate]).
  destruct ta2 as [|t1 notes1].
  { intros H. injection H as <- <- <-. cbn [ft_notes]. apply Hnil. destruct Hpre as [z Hpre]. destruct ta; [reflexivity|discriminate]. }
  destruct (nrun fuel (rc_x r) (rc_y r) (rc_w r) (rc_h r) (notes_box nel (t1 :: notes1))) as [[b1 n1]| |] eqn:N1; cbn [abind]; try discriminate.
  destruct (Qle_bool (rc_h r - 10 - 20) (o_height n1)) eqn:Eq; [discriminate|]. destruct (set_state st c1) as [c2| |]; cbn [abind]; try discriminate.
  match goal with |- context [run start ?cr save restore fuel ?a ?b ?d ?e ?f] => destruct (run start cr save restore fuel a b d e f) as [[c3 out3]| |] end; cbn [abind]; try discriminate.
  destruct (lift (check_ids fn _ [] (page_ids ids_of out3))) as [[k3 notes3]| |] eqn:Ek; cbn [abind]; try discriminate.
  assert (Hn3 : ft_out p = out3 -> notes3 = ta).
  { intros Hp. rewrite Hp in Ea. rewrite (check_ids_ok fn _ _ _ [] _ Ea Eta) in Ek. cbn [lift app] in Ek. injection Ek as _ <-. reflexivity. }
  destruct notes3 as [|t3 notes3].
  { intros H. injection H as <- <- <-. cbn [ft_notes]. apply Hnil. symmetry. apply Hn3. reflexivity. }
  destruct (nrun fuel (rc_x r) (rc_y r) (rc_w r) (rc_h r) (notes_box nel (t3 :: notes3))) as [[b3 n3]| |] eqn:N3; cbn [abind]; try discriminate.
  destruct (nrun fuel (rc_x r) (rc_y r - rc_h r + o_height n1) (rc_w r) (rc_h r) b3) as [[b4 n4]| |] eqn:N4; cbn [abind]; try discriminate.
  intros H. injection H as <- <- <-. cbn [ft_notes ft_out] in *. specialize (Hn3 eq_refl). subst ta.
  assert (Hlow : (o_height n1 < rc_h r - 30)%Q) by (destruct (Qlt_le_dec (o_height n1) (rc_h r - 30)) as [X|X]; [exact X|]; assert (Y : (rc_h r - 10 - 20 <= o_height n1)%Q) by lra; apply Qle_bool_iff in Y; congruence).
  unfold notes_box in N1, N3. rewrite box_leaves in N1, N3. destruct Hpre as [rest Hpre]. rewrite Hpre in N1.
  assert (Hp2 : prefix (map pair_of (numbered 0 (t3 :: notes3))) (map pair_of (numbered 0 ((t3 :: notes3) ++ rest)))).
  { destruct (numbered_prefix (t3 :: notes3) rest 0) as [z ->]. rewrite map_app. eexists. reflexivity. }
  destruct (measured_again nstart ncrun nsave nrestore mtop mbot tall small low_lines run_moved fuel _ _ _ _ _ _ _ _ _ _ _ _ _ Hp2 (good_notes _) N1 Hlow N3 N4) as [B1 B2].
  rewrite <- numbered_count. split.
  - revert B2. generalize (numbered 0 (t3 :: notes3)) (o_parts n4). clear. induction l as [|n l IH]; intros ps H; inversion H; subst; constructor; auto.
  - intros x Hx. destruct (proj1 (Forall_forall _ _) B1 x Hx) as [X1 X2]. split; [exact X1|]. intros X. specialize (X2 X). lra.
Qed.

Lemma pages_text elems fuel rs : forall k c ks ts c' ps, text_box elems c (map name_of ks) -> c_finished c = false -> map (nth_error fn) ks = map Some ts ->
  place_pages fuel rs k c = Done (c', ps) ->
  exists kss rest, ks = concat kss ++ rest /\ Forall2 (fun r x => page_notes r (fst x) (snd x)) (firstn (length ps) rs) (combine kss ps) /\ length kss = length ps /\ (c_finished c' = true -> rest = []).
Proof.
  induction rs as [|r rs IH]; intros k c ks ts c' ps Ht Hfin Hts; cbn [NotesPlace.place_pages].
  - intros H. injection H as <- <-. exists [], ks. split; [reflexivity|]. split; [constructor|]. split; [reflexivity|]. congruence.
  - rewrite Hfin. destruct (place_page fuel (rc_x r) (rc_y r) (rc_w r) (rc_h r) k c) as [[[c1 k1] p]| |] eqn:E1; cbn [abind]; try discriminate.
    destruct (place_pages fuel rs k1 c1) as [[c2 qs]| |] eqn:E2; cbn [abind]; try discriminate. intros H. injection H as <- <-.
    destruct (page_text _ _ _ _ _ _ _ _ _ _ Ht Hfin Hts E1) as (ka & kb & ta & tb & Ek & Et & A1 & A2 & A3 & A4).
    destruct (c_finished c1) eqn:Ef.
    + assert (Hps : qs = [] /\ c2 = c1).
      { destruct rs; cbn [NotesPlace.place_pages] in E2; [injection E2 as <- <-; auto|]. rewrite Ef in E2. injection E2 as <- <-. auto. }
      destruct Hps as [-> ->]. subst kb. exists [ka], []. cbn [concat combine length firstn]. rewrite !app_nil_r. split; [rewrite Ek, app_nil_r; reflexivity|]. split; [constructor; [exact A3|constructor]|]. auto.
    + destruct (IH _ _ _ _ _ _ A4 Ef A2 E2) as (kss & rest & R1 & R2 & R3 & R4). exists (ka :: kss), rest. cbn [concat combine length firstn]. rewrite Ek, R1, app_assoc.
      split; [reflexivity|]. split; [constructor; assumption|]. split; [f_equal; exact R3|exact R4].
Qed.

(** A section of paragraphs in one column, with footnotes that are paragraphs or
    tables: on each page the footnotes are those of its marks, they are all
    shown, whole, and not below the bottom margin; over the pages the footnotes
    of all the marks come, in order.  What does not fit in a page leaves less
    than [tall] free, and with the margins of the footnotes this is at most
    30. *)
Theorem C81_notes_partial fuel elems gap rs k c ps ks ts :
  Forall is_paragraph elems -> box_marks lmarks elems = map name_of ks -> map (nth_error fn) ks = map Some ts ->
  place_pages fuel rs k (fresh_content elems 1 gap) = Done (c, ps) ->
  exists kss rest, ks = concat kss ++ rest /\ length kss = length ps /\ Forall2 (fun r x => page_notes r (fst x) (snd x)) (firstn (length ps) rs) (combine kss ps) /\
    (c_finished c = true -> rest = []).
Proof.
  intros Hp Hm Hts H.
  assert (Ht : text_box elems (fresh_content elems 1 gap) (box_marks lmarks elems)) by (split; [reflexivity|]; split; [reflexivity|]; split; [exact Hp|]; reflexivity).
  rewrite Hm in Ht. destruct (pages_text elems fuel rs k _ ks ts c ps Ht eq_refl Hts H) as (kss & rest & A & B & C & D). eauto 10.
Qed.
End Text.
Print Assumptions C81_notes_partial.

(** ** Examples *)

(** Footnotes given by their number of lines, of height [hh]. *)
Definition nx_start (n : str * nat) : res nat := Ok (snd n).
Definition nx_crun (hh : positive) (o : nat) (x y w h : Q) : res (nat * Q * bool * list nat * list nat) :=
  let n := Nat.min o (Z.to_nat (Qfloor (h / inject_Z (Zpos hh)))) in Ok (o - n, (inject_Z (Zpos hh) * inject_Z (Z.of_nat n))%Q, o =? n, [n], []).
Definition nx_back (o : nat) (s : nat) : nat := s.
Definition nx_leaf (n : str * nat) : str * nat := n.
Definition nx_round (q : Q) : Q := Qfloor (q * 1000 + (1#2)) # 1000.
Definition nx_page (hh : positive) (fn : list nat) := place_page nx_round fx_start fx_crun snd fx_restore fx_ids nx_start (nx_crun hh) (fun o => o) nx_back (nel (fun _ => fx_style) nx_leaf) fn.
Definition nx_pages (hh : positive) (fn : list nat) := place_pages nx_round fx_start fx_crun snd fx_restore fx_ids nx_start (nx_crun hh) (fun o => o) nx_back (nel (fun _ => fx_style) nx_leaf) fn.
Lemma nx_near q : (Qabs (nx_round q - q) <= 1#2000)%Q.
Proof.
  unfold nx_round. set (n := Qfloor (q * 1000 + (1#2))). assert (H1 : (inject_Z n <= q * 1000 + (1#2))%Q) by apply Qfloor_le. assert (H2 : (q * 1000 + (1#2) < inject_Z (n + 1))%Q) by apply Qlt_floor.
  rewrite inject_Z_plus in H2. change (inject_Z 1) with 1%Q in H2. assert (E : (n # 1000 == inject_Z n * (1#1000))%Q) by (unfold Qeq, inject_Z; cbn; lia). rewrite E. apply Qabs_Qle_condition. split; lra.
Qed.
Lemma nx_low o x y w h o' ht ps ls : nx_crun 8 o x y w h = Ok (o', ht, false, ps, ls) -> (h - ht < 8)%Q.
Proof.
  unfold nx_crun. intros H. remember (Qfloor (h / inject_Z 8)) as z eqn:Ez. injection H as _ <- Hn _ _. apply Nat.eqb_neq in Hn.
  assert (Hmin : Nat.min o (Z.to_nat z) = Z.to_nat z) by lia. rewrite Hmin.
  assert (H2 : (h / inject_Z 8 < inject_Z (z + 1))%Q) by (rewrite Ez; apply Qlt_floor). rewrite inject_Z_plus in H2. change (inject_Z 1) with 1%Q in H2. change (inject_Z 8) with 8%Q in *.
  assert (Hh : (h < 8 * (inject_Z z + 1))%Q) by (setoid_replace h with (8 * (h / 8))%Q by field; lra).
  assert (Hz : (inject_Z z <= inject_Z (Z.of_nat (Z.to_nat z)))%Q) by (rewrite <- Zle_Qle; lia). lra.
Qed.
Lemma nx_moved o x y y' w h h' o1 ht fin ps ls : (h' == h)%Q -> nx_crun 8 o x y w h = Ok (o1, ht, fin, ps, ls) ->
  exists o2 ht' ps' ls', nx_crun 8 o x y' w h' = Ok (o2, ht', fin, ps', ls') /\ (ht' == ht)%Q.
Proof.
  unfold nx_crun. intros Hh. assert (Hf : Qfloor (h' / inject_Z 8) = Qfloor (h / inject_Z 8)) by (apply Qfloor_comp; rewrite Hh; reflexivity). rewrite Hf.
  intros H. remember (Qfloor (h / inject_Z 8)) as z. injection H as <- <- <- <- <-. eexists _, _, _, _. split; reflexivity.
Qed.
Lemma nx_fits o x y w h o' ht fin ps ls : nx_crun 8 o x y w h = Ok (o', ht, fin, ps, ls) -> (0 < ht)%Q -> (ht <= h)%Q.
Proof.
  unfold nx_crun. intros H. remember (Qfloor (h / inject_Z 8)) as z eqn:Ez. injection H as _ <- _ _ _. intros Hp.
  assert (H1 : (inject_Z z <= h / inject_Z 8)%Q) by (rewrite Ez; apply Qfloor_le). change (inject_Z 8) with 8%Q in *.
  assert (Hz : (0 < z)%Z). { destruct (Z_lt_le_dec 0 z) as [X|X]; [exact X|]. replace (Nat.min o (Z.to_nat z)) with 0 in Hp by lia. change (inject_Z (Z.of_nat 0)) with 0%Q in Hp. lra. }
  assert (Hn : (inject_Z (Z.of_nat (Nat.min o (Z.to_nat z))) <= inject_Z z)%Q) by (rewrite <- Zle_Qle; lia).
  assert (Hh : (h == 8 * (h / 8))%Q) by field. rewrite Hh. lra.
Qed.
Lemma fx_fits k o x y w h o' ht fin ps ls : fx_crun k o x y w h = Ok (o', ht, fin, ps, ls) -> (0 < ht)%Q -> (ht <= h)%Q.
Proof.
  unfold fx_crun. intros H. remember (Nat.min (length (snd o)) (Z.to_nat (Qfloor (h / 10)))) as n eqn:En. injection H as _ <- _ _ _. intros Hp.
  assert (H1 : (inject_Z (Qfloor (h / 10)) <= h / 10)%Q) by apply Qfloor_le.
  assert (Hz : (0 < Qfloor (h / 10))%Z). { destruct (Z_lt_le_dec 0 (Qfloor (h / 10))) as [X|X]; [exact X|]. replace n with 0 in Hp by lia. change (inject_Z (Z.of_nat 0)) with 0%Q in Hp. lra. }
  assert (Hn : (inject_Z (Z.of_nat n) <= inject_Z (Qfloor (h / 10)))%Q) by (rewrite <- Zle_Qle; lia).
  assert (Hh : (h == 10 * (h / 10))%Q) by field. rewrite Hh. lra.
Qed.
Lemma fx_same k o x y y' w h h' o1 ht fin ps ls o1' ht' fin' ps' ls' : (y' == y)%Q -> (h' == h)%Q ->
  fx_crun k o x y w h = Ok (o1, ht, fin, ps, ls) -> fx_crun k o x y' w h' = Ok (o1', ht', fin', ps', ls') -> (ht' == ht)%Q /\ fin' = fin /\ snd o1' = snd o1.
Proof.
  intros _ Hh. unfold fx_crun. assert (Hf : Qfloor (h' / 10) = Qfloor (h / 10)) by (apply Qfloor_comp; rewrite Hh; reflexivity). rewrite Hf.
  remember (Nat.min (length (snd o)) (Z.to_nat (Qfloor (h / 10)))) as n. intros H H'. injection H as <- <- <- _ _. injection H' as <- <- <- _ _. repeat split; reflexivity.
Qed.
(** What a page has: the top and the bottom of each part of the section; where
    the footnotes begin and the line; the top and the bottom of each of them. *)
Definition spots {O P} (l : list (@placed O P)) : list (Q * Q) := map (fun q => (Qred (p_top q), Qred (p_top q - p_height q))%Q) l.
Definition page_spots {O P L NO NP NL} (p : @footed O P L NO NP NL) : list (Q * Q) * option (Q * Q * list (Q * Q)) :=
  (spots (o_parts (ft_out p)), match ft_notes p with Some (t, r, n) => Some (Qred t, Qred r, spots (o_parts n)) | None => None end).
Lemma flat_room {E} (l : list (@elem E)) r : Forall (fun e => match e with Child _ _ _ _ => False | _ => True end) l -> (0 <= rc_w r)%Q -> room l 1 None (fun s => s = fx_style) r.
Proof.
  intros Hl Hw l' x w s H ->. cbn [fx_style s_ml s_mr].
  assert (K : l' = l /\ (w == rc_w r)%Q).
  { induction H as [k x Hk Hx|l1 x w s n gap l2 k x' H IH Hin Hk Hx]; [split; [reflexivity|unfold col_of; change (qn 1) with 1%Q; field]|].
    destruct IH as [-> _]. apply (Forall_forall _ _) with (x := Child s n gap l2) in Hl; [destruct Hl|exact Hin]. }
  destruct K as [_ K]. rewrite K. lra.
Qed.
Definition nx_rs : list rect := [mkRect 0 800 500 120; mkRect 0 800 500 120; mkRect 0 800 500 130].
(** Two paragraphs with five marks, on pages that end at 680, 680 and 670. *)
Example C81_applies :
  (forall n : str * nat, (0 <= s_mt fx_style <= 0 /\ 0 <= s_mb fx_style <= 5)%Q) /\ (0 <= 0 /\ 0 <= 5 /\ 8 + 0 + 5 <= 30)%Q /\
  okels (fun s => s = fx_style) False fx_text /\ shape 1 fx_text /\ (forall l, okels (fun s => s = fx_style) False (map (nel (fun _ => fx_style) nx_leaf) l)) /\
  Forall (fun r => room fx_text 1 None (fun s => s = fx_style) r /\ forall l : list (str * nat), room (map (nel (fun _ => fx_style) nx_leaf) l) 1 None (fun s => s = fx_style) r) nx_rs /\
  Forall is_paragraph fx_text /\ box_marks fx_lmarks fx_text = map name_of [0; 1; 2; 3; 4] /\
  match nx_pages 8 [1; 2; 1; 1; 3] 20 nx_rs fx_k0 (fresh_content fx_text 1 None) with
  | Done (c, ps) => c_finished c = true /\
      map page_spots ps =
        [([(800, 780)], Some (764, 769, [(764, 756)]));
         ([(800, 790); (785, 765)], Some (751, 756, [(751, 735); (730, 722)]));
         ([(800, 780)], Some (707, 712, [(707, 699); (694, 670)]))]%Q
  | _ => False
  end.
Proof.
  split; [intros _; cbn; lra|]. split; [lra|]. split; [cbn; repeat split|]. split; [split; [|congruence]; intros _; cbn; repeat split|].
  split; [induction l as [|n l IH]; [exact I|]; split; [reflexivity|exact IH]|].
  split; [apply Forall_forall; intros r Hr; assert (Hw : rc_w r = 500%Q) by (destruct Hr as [<-|[<-|[<-|[]]]]; reflexivity); split; [|intros l]; apply flat_room; try (rewrite Hw; lra); [repeat constructor|induction l; constructor; [exact I|assumption]]|].
  split; [repeat constructor|]. split; [reflexivity|]. vm_compute. auto.
Qed.

(** A footnote of three lines of height 34 on a page of height 99: only two of
    them fit when it is measured, the height of these is accepted, and what is
    shown is what follows, so the first two lines are lost. *)
Theorem C81_cut_refuted : ~ (forall hh fn elems fuel x y w h k c k' p, nx_page hh fn fuel x y w h k (fresh_content elems 1 None) = Done (c, k', p) -> Forall is_paragraph elems ->
  forall ts, map (nth_error fn) [0] = map Some ts -> shown_marks (page_ids fx_ids (ft_out p)) = [name_of 0] ->
  match ft_notes p with None => False | Some (_, _, n) => exists s x y w h o o' ht qs, nx_start (lit "1 ", hd 0 ts) = Ok o /\ o_parts n = [PlLeaf s x y w h o o' ht true qs] end).
Proof.
  intros H.
  assert (E : match nx_page 34 [3] 20 0 800 500 99 fx_k0 (fresh_content [Leaf fx_style [[0]; []; []]] 1 None) with
     | Done (_, _, p) => shown_marks (page_ids fx_ids (ft_out p)) = [name_of 0] /\ match ft_notes p with None => False | Some (_, _, n) => map (fun q => match q with PlLeaf _ _ _ _ _ o _ _ _ _ => o | _ => 0 end) (o_parts n) = [1] end
     | _ => False end) by (vm_compute; auto).
  destruct (nx_page 34 [3] 20 0 800 500 99 fx_k0 (fresh_content [Leaf fx_style [[0]; []; []]] 1 None)) as [[[c k'] p]| |] eqn:Ea; try contradiction.
  destruct E as [E1 E2]. specialize (H _ _ _ _ _ _ _ _ _ _ _ _ Ea ltac:(repeat constructor) [3] eq_refl E1). destruct (ft_notes p) as [[[t r] n]|]; [|contradiction].
  destruct H as (s & x & y & w & h & o & o' & ht & qs & H1 & H2). rewrite H2 in E2. cbn [map] in E2. unfold nx_start in H1. cbn [snd hd] in H1. injection H1 as <-. discriminate.
Qed.
Print Assumptions C81_cut_refuted.

(** A group of four lines with a mark, and a paragraph with another: the group
    fits in the first pass but not above its footnote; the second pass shows the
    paragraph, and its footnote of five lines in the room for the other one ends
    below the bottom margin. *)
Theorem C81_group_refuted : ~ (forall fn elems fuel x y w h k c k' p, nx_page 8 fn fuel x y w h k (fresh_content elems 1 None) = Done (c, k', p) ->
  match ft_notes p with None => True | Some (_, _, n) => forall q, In q (o_parts n) -> (0 < p_height q)%Q -> (y - h <= p_top q - p_height q)%Q end).
Proof.
  intros H.
  assert (E : match nx_page 8 [1; 5] 20 0 800 500 50 fx_k0 (fresh_content fx_group 1 None) with
     | Done (_, _, p) => match ft_notes p with None => False | Some (_, _, n) => existsb (fun q => negb (Qle_bool (p_height q) 0) && negb (Qle_bool (800 - 50) (p_top q - p_height q))) (o_parts n) = true end
     | _ => False end) by (vm_compute; reflexivity).
  destruct (nx_page 8 [1; 5] 20 0 800 500 50 fx_k0 (fresh_content fx_group 1 None)) as [[[c k'] p]| |] eqn:Ea; try contradiction.
  specialize (H _ _ _ _ _ _ _ _ _ _ _ Ea). destruct (ft_notes p) as [[[t r] n]|]; [|contradiction].
  apply existsb_exists in E as (q & Hq & E). apply andb_prop in E as [E1 E2]. apply Bool.negb_true_iff in E1, E2.
  assert (Hp : (0 < p_height q)%Q) by (destruct (Qlt_le_dec 0 (p_height q)) as [X|X]; [exact X|]; apply Qle_bool_iff in X; congruence).
  specialize (H q Hq Hp). apply Qle_bool_iff in H. congruence.
Qed.
Print Assumptions C81_group_refuted.
