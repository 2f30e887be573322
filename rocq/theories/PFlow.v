(** What is added over several pages (properties C64 and C65). *)
From Coq Require Import String QArith ZArith Lia Lqa.
From Verif Require Import Py PyStr Parser StreamProofs Margins PageGeom Content Gfx TextLayout TextProofs TextWords TextOrder TextFit TextWidth TextTerm PText PText2 Flow.
Open Scope list_scope.
Open Scope nat_scope.

(** ** Paragraphs: [PDF.text] *)
Section Text.
Variable float_of : str -> res Q.
Variable round3 : Q -> Q.
Variable text_w : fkey -> str -> Q.
Variable space_w : fkey -> Q.
Variable fref : fkey -> str.
Notation run := (TextLayout.run round3 text_w space_w fref).
Notation runs := (TextLayout.runs round3 text_w space_w fref).

(** pdf.py 679-701: the paragraph is run in each rectangle. *)
Definition text_method (c : config) (fuel : nat) (s : pages_state) : ans (list (shown dyn) * pages_state) :=
  flow float_of (fun d x y w h => run c d w h) d_fin (fun p d => after_text p (d_h d)) fuel (fresh c) s.

Lemma runs_snoc c w h : forall rects d ds, runs c d rects = Ok ds -> d_fin (last ds d) = false ->
  runs c d (rects ++ [(w, h)]) = (do d1 <- run c (last ds d) w h; Ok (ds ++ [d1])).
Proof.
  induction rects as [|[w' h'] rects IH]; intros d ds E Hf; cbn [TextLayout.runs app] in *.
  - injection E as <-. cbn [last app]. destruct (run c d w h) as [d1|]; cbn [bind]; [|reflexivity]. now destruct (d_fin d1).
  - destruct (run c d w' h') as [d1|] eqn:E1; [|discriminate]. cbn [bind] in *. destruct (d_fin d1) eqn:F1; [injection E as <-; cbn in Hf; congruence|].
    destruct (runs c d1 rects) as [rest|] eqn:E2; [|discriminate]. cbn [bind] in E. injection E as <-. rewrite last_cons in Hf |- *.
    rewrite (IH d1 rest E2 Hf). destruct (run c (last rest d1) w h); reflexivity.
Qed.
Lemma go_on_text c M R first : c_list c = None \/ text_first (c_content c) ->
  forall fuel rects ds s, can_add s -> (forall p, default_page s p -> small c (p_ch p) M R) ->
  runs c (fresh c) (first :: rects) = Ok ds -> Forall (fun r => small c (snd r) M R) rects -> d_fin (last ds (fresh c)) = false ->
  (exists r, go_on float_of (fun d x y w h => run c d w h) d_fin (fun p d => after_text p (d_h d)) fuel (last ds (fresh c)) s = Done r) \/
  (go_on float_of (fun d x y w h => run c d w h) d_fin (fun p d => after_text p (d_h d)) fuel (last ds (fresh c)) s = Out /\
   exists rects' ds', List.length rects' = List.length rects + fuel /\ runs c (fresh c) (first :: rects') = Ok ds' /\
     Forall (fun r => small c (snd r) M R) rects' /\ d_fin (last ds' (fresh c)) = false).
Proof.
  intros Hl. induction fuel as [|fuel IH]; intros rects ds s Hc Hs E Hr Hf; cbn [go_on]; rewrite Hf.
  - right. split; [reflexivity|]. exists rects, ds. rewrite Nat.add_0_r. auto.
  - destruct (add_page_ok float_of s Hc) as (s1 & p & n & K1 & K2 & K3 & K4 & K5). rewrite K1.
    assert (Hp1 : nth_error (ps_pages s1) (ps_index s1) = Some p) by (rewrite K2; cbn; rewrite nth_error_app2, Nat.sub_diag by lia; reflexivity).
    unfold put. rewrite Hp1. pose proof (position_spec p (Some (p_ml p)) (Some (p_mt p)) (Some (p_cw p)) (Some (p_ch p))) as Hsp.
    destruct (position_and_size _ _ _ _ _) as [p2 [[[x' y'] w'] h']]. destruct Hsp as (_ & _ & -> & -> & _).
    destruct (C31_runs round3 text_w space_w fref c ((first :: rects) ++ [(p_cw p, p_ch p)]) Hl) as (ds1 & E1).
    pose proof E1 as E2. rewrite (runs_snoc _ _ _ _ _ _ E Hf) in E2. destruct (run c (last ds (fresh c)) (p_cw p) (p_ch p)) as [d1|] eqn:Ed; [|discriminate]. cbn [bind] in *.
    injection E2 as <-. cbn [lift abind].
    set (s2 := set_page _ _ _). assert (Hs2 : same_settings s2 s) by (unfold s2; rewrite K2; repeat split).
    assert (Hc2 : can_add s2) by (eapply can_add_same; [exact Hs2|exact Hc]).
    destruct (d_fin d1) eqn:Fd.
    + left. destruct fuel; cbn [go_on]; rewrite Fd; cbn [abind]; eauto.
    + specialize (IH (rects ++ [(p_cw p, p_ch p)]) (ds ++ [d1]) s2 Hc2).
      assert (Hs' : forall q, default_page s2 q -> small c (p_ch q) M R).
      { intros q Hq. apply Hs. eapply default_same; [|exact Hq]. destruct Hs2 as (A1 & A2 & A3 & A4 & A5 & A6 & A7). repeat split; congruence. }
      rewrite !last_last in IH. specialize (IH Hs' E1). destruct IH as [(r & IH)|(IH & rects' & ds' & Q1 & Q2)].
      * apply Forall_app. split; [exact Hr|]. constructor; [|constructor]. cbn [snd]. apply Hs, K3.
      * exact Fd.
      * left. rewrite IH. cbn [abind]. destruct r. eauto.
      * right. rewrite IH. split; [reflexivity|]. exists rects', ds'. split; [|exact Q2]. rewrite app_length in Q1. cbn [List.length] in Q1. lia.
Qed.

Lemma chain_runs c : forall l d, chain (fun d x y w h => run c d w h) d_fin d l ->
  (l = [] /\ d_fin d = true) \/ (runs c d (map (fun sh => (sh_w sh, sh_h sh)) l) = Ok (map sh_obj l) /\ d_fin (last (map sh_obj l) d) = true).
Proof.
  intros l d H. induction H as [o Ho|o sh l Ho Hr Hc IH]; [left; auto|]. right. cbn [map TextLayout.runs]. unfold runs_in in Hr. rewrite Hr. cbn [bind].
  destruct IH as [[-> IH]|[IH1 IH2]]; [rewrite IH; auto|]. inversion Hc as [? Hf|? sh' l' Hf Hr' Hc']; subst.
  - cbn [map TextLayout.runs] in IH1. cbn [map last] in *. rewrite IH2. auto.
  - rewrite Hf, IH1. cbn [bind]. split; [reflexivity|]. rewrite last_cons. exact IH2.
Qed.

(** A paragraph is shown whole: from the cursor to the end of its page, and then
    in new pages at the end of the document, each from its top left corner with
    its whole width and height; no more pages are added than are used, no other
    page is touched, the text is in the margins and the cursor is left under it,
    at the left margin.  It ends when the lines are not taller than a page. *)
Theorem C64_text c M R s p : c_list c = None \/ text_first (c_content c) ->
  can_add s -> (forall q, default_page s q -> small c (p_ch q) M R) ->
  nth_error (ps_pages s) (ps_index s) = Some p ->
  exists fuel out s', text_method c fuel s = Done (out, s') /\
    placed (map sh_obj out) = chunks (all_toks (c_content c)) /\
    (exists first rest, out = first :: rest /\
      sh_page first = ps_index s /\ rest_of_page p first /\
      List.length (ps_pages s') = List.length (ps_pages s) + List.length rest /\
      (forall k sh, nth_error rest k = Some sh -> sh_page sh = List.length (ps_pages s) + k /\
        exists q, nth_error (ps_pages s') (sh_page sh) = Some q /\ default_page s q /\ whole_page q sh)) /\
    (forall sh, In sh out -> d_lines (sh_obj sh) <> [] -> (d_h (sh_obj sh) <= sh_h sh)%Q) /\
    (forall i, i < List.length (ps_pages s) -> i <> ps_index s -> nth_error (ps_pages s') i = nth_error (ps_pages s) i) /\
    exists sh q, last (map Some out) None = Some sh /\ ps_index s' = sh_page sh /\ nth_error (ps_pages s') (ps_index s') = Some q /\
      p_x q = p_ml q /\ (p_yb q == sh_y sh - d_h (sh_obj sh))%Q.
Proof.
  intros Hl Hc Hs Hp. set (fuel := S (List.length (all_toks (c_content c)))).
  assert (Hend : exists out s', text_method c fuel s = Done (out, s')).
  { unfold text_method, flow, put. rewrite Hp. destruct (position_and_size _ _ _ _ _) as [p2 [[[x' y'] w'] h']].
    destruct (C31_runs round3 text_w space_w fref c [(w', h')] Hl) as (ds & E). pose proof E as E0. cbn [TextLayout.runs] in E.
    destruct (run c (fresh c) w' h') as [d1|] eqn:Ed; [|discriminate]. cbn [bind lift abind] in *.
    assert (Eds : ds = [d1]) by (destruct (d_fin d1); congruence). subst ds.
    set (s1 := set_page _ _ _). assert (Hs1 : same_settings s1 s) by (repeat split). assert (Hc1 : can_add s1) by (eapply can_add_same; [exact Hs1|exact Hc]).
    destruct (d_fin d1) eqn:Fd; [unfold fuel; cbn [go_on]; rewrite Fd; cbn [abind]; eauto|].
    destruct (go_on_text c M R (w', h') Hl fuel [] [d1] s1 Hc1 Hs E0 ltac:(constructor) Fd) as [([l s2] & K)|(K & rects & ds & K1 & K2 & K3 & K4)]; cbn [last] in K.
    - rewrite K. cbn [abind]. eauto.
    - exfalso. destruct (C35_terminates round3 text_w space_w fref c (w', h') rects M R Hl K3) as (ds' & T1 & T2); [cbn in K1; unfold fuel in K1; lia|].
      rewrite K2 in T1. injection T1 as <-. congruence. }
  destruct Hend as (out & s' & E). exists fuel, out, s'. split; [exact E|]. unfold text_method in E.
  apply flow_ok with (p := p) in E; [|intros q o; apply after_text_geometry|exact Hc|exact Hp].
  destruct E as (first & rest & -> & F1 & F2 & F3 & F4 & F5 & F6 & F7 & F8 & q & q2 & F9 & F10 & F11 & F12 & F13 & F14 & F15).
  unfold runs_in in F1. split.
  { assert (Hr : runs c (fresh c) (map (fun sh => (sh_w sh, sh_h sh)) (first :: rest)) = Ok (map sh_obj (first :: rest)) /\ d_fin (last (map sh_obj (first :: rest)) (fresh c)) = true).
    { cbn [map TextLayout.runs]. rewrite F1. cbn [bind]. destruct (chain_runs c rest (sh_obj first) F2) as [[-> K]|[K1 K2]]; [rewrite K; auto|].
      inversion F2 as [? Hf|? sh' l' Hf Hr' Hc']; subst; [cbn [map last TextLayout.runs] in *; rewrite K2; auto|]. rewrite Hf, K1. cbn [bind]. split; [reflexivity|]. rewrite last_cons. exact K2. }
    destruct Hr as [Hr1 Hr2]. eapply C31_finished; eassumption. }
  split; [exists first, rest; auto 6|]. split.
  { intros sh Hin Hne. assert (K : exists d, run c d (sh_w sh) (sh_h sh) = Ok (sh_obj sh)).
    { destruct Hin as [<-|Hin]; [eauto|]. clear - F2 Hin. induction F2 as [o Ho|o sh' l Ho Hr Hc IH]; [destruct Hin|]. destruct Hin as [<-|Hin]; [exists o; exact Hr|auto]. }
    destruct K as (d & K). apply (C32_height _ _ _ _ _ _ _ _ _ K), Hne. }
  split; [exact F7|]. exists (last rest first), q. split.
  { clear. revert first. induction rest as [|a rest IH]; intros first; [reflexivity|]. cbn [map]. change (last (map Some (a :: rest)) None = Some (last (a :: rest) first)). rewrite (IH a). f_equal. destruct rest; [reflexivity|]. cbn [last]. clear. revert s. induction rest as [|b rest IH]; intros s; [reflexivity|]. cbn [last]. apply IH. }
  split; [exact F9|]. split; [exact F10|]. rewrite F14. unfold after_text, move_down, set_y, get_y. cbn. rewrite F12, F13. split; [|destruct F11 as (_ & F11 & _); lra].
  destruct F11 as (_ & _ & _ & _ & F11 & _). rewrite F11. destruct rest as [|a rest'] using rev_ind.
  - cbn [last]. destruct (F15 eq_refl) as (_ & _ & _ & _ & -> & _). apply F4.
  - rewrite last_last. destruct (F8 (List.length rest') a) as (_ & q' & K1 & K2 & K3); [now rewrite nth_error_app2, Nat.sub_diag|].
    rewrite last_last in F9. rewrite F9, K1 in F10. injection F10 as ->. apply K3.
Qed.
End Text.
Print Assumptions C64_text.

(** Two pages of 100 by 30 with margins of 5 for the text of PText.v, from a
    cursor in the middle of the first one. *)
Definition f_page : page := go_to_beginning (mkPage 100 30 5 5 5 79 0 0 0 0).
Definition f_doc (p : page) : pages_state :=
  mkPS 100 30 false [(lit "top", 5); (lit "right", 80); (lit "bottom", 21); (lit "left", 5)]%Q [f_page; p; f_page] 1 None 0 false [fun p => Ok (0, 0)%Q].
Definition f_cursor : page := set_y f_page (21 # 1).
Example C64_applies : can_add (f_doc f_cursor) /\ (forall q, default_page (f_doc f_cursor) q -> small (ex_cfg AJust) (p_ch q) 2 0) /\
  exists out s', text_method (fun _ => Ok 0%Q) (fun q => q) ex_text_w ex_space_w ex_ref (ex_cfg AJust) 5 (f_doc f_cursor) = Done (out, s') /\
    map sh_page out = [1; 3; 4; 5; 6]%nat /\ map (fun sh => List.length (d_lines (sh_obj sh))) out = [1; 1; 1; 1; 1]%nat.
Proof.
  split; [|split].
  - split; [|split; [|intros f q [<-|[]]; reflexivity]].
    + split; [repeat constructor; vm_compute; intuition discriminate|]. intros k H. vm_compute in H. vm_compute. tauto.
    + intros i. unfold page_number. cbn [f_doc ps_roman ps_offset]. eauto.
  - intros q (H1 & H2 & H3 & H4 & H5 & _ & H6). cbn [f_doc ps_rot ps_w ps_h] in H1. injection H1 as W1 W2. split.
    + assert (E2 : p_mt q = 5%Q) by (rewrite H2; reflexivity). assert (E4 : p_mb q = 21%Q) by (rewrite H4; reflexivity).
      rewrite W2, E2, E4 in H6. cbn [ex_cfg c_lh]. split; [lra|]. split; [lra|]. rewrite H6. vm_compute. discriminate.
    + intros y Hy. vm_compute in Hy. repeat (destruct Hy as [<-|Hy]; [vm_compute; split; discriminate|]). destruct Hy.
  - eexists _, _. split; [vm_compute; reflexivity|]. split; reflexivity.
Qed.

(** ** Tables and content boxes: [PDF.table] and [PDF.content] *)
Section Box.
Variable float_of : str -> res Q.
Context {O : Type}.
Variable orun : O -> Q -> Q -> Q -> Q -> res O.
Variable ofin : O -> bool.
(** What the run that gave the object drew. *)
Variable oheight : O -> Q.
Variable oparts : O -> list bpart.
(** pdf.py 782-803, 860-876. *)
Definition box_method (fuel : nat) (o : O) (s : pages_state) : ans (list (shown O) * pages_state) :=
  flow float_of orun ofin (fun p o => after_box p (oparts o) (oheight o)) fuel o s.

(** A table or a content box is run until it is finished: from the cursor to the
    end of its page, and then in new pages at the end of the document, each from
    its top left corner with its whole width and height; what it draws comes
    before what is added later: the cursor is not above its bottom. *)
Theorem C65_boxes_partial fuel o s p out s' : can_add s -> nth_error (ps_pages s) (ps_index s) = Some p ->
  box_method fuel o s = Done (out, s') ->
  exists first rest, out = first :: rest /\
    orun o (sh_x first) (sh_y first) (sh_w first) (sh_h first) = Ok (sh_obj first) /\ chain orun ofin (sh_obj first) rest /\
    sh_page first = ps_index s /\ rest_of_page p first /\
    List.length (ps_pages s') = List.length (ps_pages s) + List.length rest /\
    (forall k sh, nth_error rest k = Some sh -> sh_page sh = List.length (ps_pages s) + k /\
      exists q, nth_error (ps_pages s') (sh_page sh) = Some q /\ default_page s q /\ whole_page q sh) /\
    (forall i, i < List.length (ps_pages s) -> i <> ps_index s -> nth_error (ps_pages s') i = nth_error (ps_pages s) i) /\
    let l := last rest first in exists q, ps_index s' = sh_page l /\ nth_error (ps_pages s') (ps_index s') = Some q /\
      (Forall (part_under (sh_y l)) (oparts (sh_obj l)) -> (p_yb q <= sh_y l - oheight (sh_obj l))%Q).
Proof.
  intros Hc Hp E. unfold box_method in E. apply flow_ok with (p := p) in E; [|intros q o'; apply after_box_geometry|exact Hc|exact Hp].
  destruct E as (first & rest & -> & F1 & F2 & F3 & F4 & F5 & F6 & F7 & F8 & q & q2 & F9 & F10 & F11 & F12 & F13 & F14 & F15).
  exists first, rest. split; [reflexivity|]. split; [exact F1|]. split; [exact F2|]. split; [exact F3|]. split; [exact F4|]. split; [exact F6|]. split; [exact F8|].
  split; [exact F7|]. exists q. split; [exact F9|]. split; [exact F10|]. intros Hu. rewrite F14. unfold after_box, move_down, set_y, get_y. cbn.
  pose proof (parts_under _ _ q2 ltac:(rewrite F13; apply Qle_refl) Hu). lra.
Qed.
End Box.
Print Assumptions C65_boxes_partial.

(** The cursor is never at the bottom of a box with something in it: every part
    moves it once more. *)
Theorem C65_cursor_refuted p parts height : Forall (part_under (p_yb p)) parts -> (exists b, In b parts /\ 0 < part_height b)%Q ->
  (p_yb (after_box p parts height) < p_yb p - height)%Q.
Proof.
  intros Hf Hs. pose proof (parts_strict _ _ p (Qle_refl _) Hf (or_intror Hs)). unfold after_box, move_down, set_y, get_y. cbn. lra.
Qed.
Print Assumptions C65_cursor_refuted.
(** A box of paragraphs of height 3: as many as fit, of those that are left. *)
Definition b_run (o : nat * nat) (x y w h : Q) : res (nat * nat) :=
  let k := Nat.min (snd o) (Z.to_nat (Qround.Qfloor (h / 3))) in Ok (k, (snd o - k)%nat).
Definition b_parts (o : nat * nat) : list bpart := repeat (BPar 3) (fst o).
Definition b_height (o : nat * nat) : Q := inject_Z (3 * Z.of_nat (fst o)).
Example C65_applies : exists out s', box_method (fun _ => Ok 0%Q) b_run (fun o => (snd o =? 0)%nat) b_height b_parts 5 (0, 4)%nat (f_doc f_cursor) = Done (out, s') /\
  map sh_page out = [1; 3; 4; 5]%nat /\ map (fun sh => fst (sh_obj sh)) out = [1; 1; 1; 1]%nat /\
  Forall (fun sh => Forall (part_under (sh_y sh)) (b_parts (sh_obj sh))) out /\
  (** The last paragraph goes from 5 to 8, and the cursor is at 11. *)
  exists q, nth_error (ps_pages s') 5 = Some q /\ (get_y q == 11)%Q.
Proof.
  eexists _, _. split; [vm_compute; reflexivity|]. split; [reflexivity|]. split; [reflexivity|]. split.
  - repeat (constructor; [constructor; [vm_compute; discriminate|constructor]|]). constructor.
  - eexists. split; [vm_compute; reflexivity|]. vm_compute. reflexivity.
Qed.
