(** Model of the place of the footnotes of a page: pdfme/document.py 362-408,
    with the footnotes as a content box (439-482).  Footnotes.v has the same
    function with only the height of the footnotes. *)
From Coq Require Import QArith ZArith Lia Lqa List.
From Verif Require Import Py Table Content ContentFlow ContentBalance Footnotes FootnotesProofs PContent.
Import ListNotations.
Open Scope list_scope.
Open Scope nat_scope.

Section Page.
Context {E O S P L T NE NO NS NP NL : Type}.
Variable round3 : Q -> Q.
Variable start : E -> res O.
Variable crun : ctx -> O -> Q -> Q -> Q -> Q -> res (O * Q * bool * list P * list L).
Variable save : O -> S.
Variable restore : O -> S -> O.
Variable ids_of : P -> list (str * nat).
(** The elements of the box of the footnotes; there are no marks in them, so
    they are run without the context. *)
Variable nstart : NE -> res NO.
Variable ncrun : NO -> Q -> Q -> Q -> Q -> res (NO * Q * bool * list NP * list NL).
Variable nsave : NO -> NS.
Variable nrestore : NO -> NS -> NO.
Variable nelem : str * T -> @elem NE.
Variable fn : list T.
Notation content := (@content E O S).
Notation ncontent := (@Content.content NE NO NS).
Notation nrun := (Content.run nstart ncrun nsave nrestore).

(** document.py 449-461: the box, of one column. *)
Definition notes_box (l : list T) : ncontent := fresh_content (map nelem (numbered 0 l)) 1 None.

(** What is on a page: the section; where the footnotes begin, the height of
    the line, and the footnotes. *)
Record footed := mkFooted { ft_out : @output O P L; ft_notes : option (Q * Q * @output NO NP NL) }.

(** document.py 362-408 [_add_content], of a page with its contents in the
    rectangle (x, y, w, h), so that the bottom margin is y - h.  The second
    element of the answer is the context.  The height of the line is that of
    line 404, with footnotes_margin 10 (document.py 198); lines 405-407 draw
    it. *)
Definition place_page (fuel : nat) (x y w h : Q) (k : ctx) (c : content) : ans (content * ctx * footed) :=
  run! st <- (match c_part c with None => Done (0, [], []) | Some _ => get_state c end);
  run! (c1, out1) <- run start (crun k) save restore fuel x y w h c;
  run! (k1, notes1) <- lift (check_ids fn k [] (page_ids ids_of out1));
  match notes1 with
  | [] => Done (c1, k1, mkFooted out1 None)
  | _ =>
      run! (_, n1) <- nrun fuel x y w h (notes_box notes1);
      let fh := o_height n1 in
      if Qle_bool (h - 10 - 20) fh then Raise PyException
      else
        run! c2 <- set_state st c1;
        let c2' := mkC (c_elems c2) (c_cols c2) (c_gap c2) (c_part c2) false (c_heap c2) (c_tries c2) in
        run! (c3, out3) <- run start (crun k1) save restore fuel x y w (h - fh - 10) c2';
        run! (k3, notes3) <- lift (check_ids fn k1 [] (page_ids ids_of out3));
        match notes3 with
        | [] => Done (c3, k3, mkFooted out3 None)
        | _ =>
            run! (b3, _) <- nrun fuel x y w h (notes_box notes3);
            let top := (y - h + fh)%Q in
            run! (_, n4) <- nrun fuel x top w h b3;
            Done (c3, k3, mkFooted out3 (Some (top, round3 (top + 10 / 2), n4)))
        end
  end.
(** document.py 316-360 [_process_section], the pages one after the other, in the
    given rectangles. *)
Fixpoint place_pages (fuel : nat) (rs : list rect) (k : ctx) (c : content) : ans (content * list footed) :=
  match rs with
  | [] => Done (c, [])
  | r :: rs =>
      if c_finished c then Done (c, [])
      else run! (c1, k1, p) <- place_page fuel (rc_x r) (rc_y r) (rc_w r) (rc_h r) k c; run! (c2, ps) <- place_pages fuel rs k1 c1; Done (c2, p :: ps)
  end.
End Page.

(** ** A column of paragraphs, and running it again *)
Section Stack.
Context {E O S P L : Type}.
Variable start : E -> res O.
Variable crun : O -> Q -> Q -> Q -> Q -> res (O * Q * bool * list P * list L).
Variable save : O -> S.
Variable restore : O -> S -> O.
Notation elem := (@elem E).
Notation part := (@part E S).
Notation content := (@content E O S).
Notation placed := (@placed O P).
Definition leaves (l : list (style * E)) : list elem := map (fun p => Leaf (fst p) (snd p)) l.
(** The margins are small, and an object leaves little room when it does not
    finish. *)
Variables mtop mbot tall : Q.
Hypothesis small : (0 <= mtop /\ 0 <= mbot /\ tall + mtop + mbot <= 30)%Q.
Hypothesis low_lines : forall o x y w h o' ht ps ls, crun o x y w h = Ok (o', ht, false, ps, ls) -> (h - ht < tall)%Q.
Definition good (s : style) : Prop := (0 <= s_mt s <= mtop /\ 0 <= s_mb s <= mbot)%Q.

Fixpoint stack (left colw m : Q) (l : list (style * E)) (y : Q) (st : bool) (lb : Q) : option (list placed * (Q * bool * Q)) :=
  match l with
  | [] => Some ([], (y, st, lb))
  | (s, e) :: r =>
      let y1 := if negb st && true then (y - s_mt s)%Q else y in
      let y2 := if st then y1 else (y1 - lb)%Q in
      let w := (colw - s_ml s - s_mr s)%Q in
      let h := qmax 0 (y2 - m) in
      match start e with
      | Ok o =>
          match crun o (left + s_ml s)%Q y2 w h with
          | Ok (o', ht, true, ps, ls) =>
              let '(y', st', lb') := if qlt 0 ht then ((y2 - ht)%Q, false, s_mb s) else (y, st, lb) in
              match stack left colw m r y' st' lb' with
              | Some (q, z) => Some (PlLeaf s (left + s_ml s)%Q y2 w h o o' ht true ps :: q, z)
              | None => None
              end
          | _ => None
          end
      | _ => None
      end
  end.

Definition same_but (f f' : part) : Prop := exists y st lb i d, f' = with_todo (with_y f y st lb) i d.
Lemma same_but_trans f f1 f2 : same_but f f1 -> same_but f1 f2 -> same_but f f2.
Proof. intros (y & st & lb & i & d & ->) (y' & st' & lb' & i' & d' & ->). exists y', st', lb', i', d'. reflexivity. Qed.

Lemma add_leaves rec : forall fuel l f anc g a f' anc' g', f_elems f = leaves l -> f_delayed f = [] -> Forall (fun p => good (fst p)) l -> (0 <= f_lastbottom f <= mbot)%Q ->
  add_elements start crun save restore rec fuel f anc g = Done (a, (f', anc', g')) ->
  anc' = anc /\ same_but f f' /\ (f_y f' <= f_y f)%Q /\
  match stack (left_edge f) (f_colw f) (f_maxy f) (skipn (f_index f) l) (f_y f) (f_starting f) (f_lastbottom f) with
  | Some (ps, (y, st, lb)) => a = Goon /\ g_parts g' = g_parts g ++ ps /\ f_y f' = y /\ f_delayed f' = []
  | None => a = Next /\ (f_y f' - f_maxy f < 30)%Q
  end.
Proof.
  destruct small as (Sm1 & Sm2 & Sm3). induction fuel as [|fuel IH]; intros l f anc g a f' anc' g' He Hd Hg Hlb; [discriminate|]. cbn [add_elements].
  destruct (nth_error (f_elems f) (f_index f)) as [el|] eqn:En.
  2:{ intros H. injection H as <- <- <- <-. split; [reflexivity|]. split; [exists (f_y f), (f_starting f), (f_lastbottom f), (f_index f), (f_delayed f); destruct f; reflexivity|]. split; [lra|].
      apply nth_error_None in En. rewrite He in En. unfold leaves in En. rewrite map_length in En. rewrite skipn_all2 by exact En. cbn [stack]. rewrite app_nil_r. auto. }
  rewrite He in En. unfold leaves in En. destruct (nth_error l (f_index f)) as [[s e]|] eqn:Enl; [|rewrite nth_error_map, Enl in En; discriminate].
  rewrite nth_error_map, Enl in En. cbn [option_map fst snd] in En. injection En as <-. cbn [process].
  assert (Hsk : skipn (f_index f) l = (s, e) :: skipn (Datatypes.S (f_index f)) l).
  { clear - Enl. revert Enl. generalize (f_index f). induction l as [|a l IH]; intros [|n] H; try discriminate; cbn [skipn nth_error] in *; [injection H as <-; reflexivity|]. apply IH. exact H. }
  assert (Hs : good s) by (apply (Forall_forall (fun p => good (fst p)) l) with (x := (s, e)); [exact Hg|eapply nth_error_In; exact Enl]).
  rewrite Hsk. cbn [stack]. unfold process_leaf, space.
  set (y1 := if negb (f_starting f) && true then (f_y f - s_mt s)%Q else f_y f). set (y2 := if f_starting f then y1 else (y1 - f_lastbottom f)%Q).
  assert (Hy2 : (y2 <= f_y f)%Q) by (unfold y2, y1; destruct Hs; destruct (f_starting f); cbn [negb andb]; lra).
  destruct (start e) as [o|] eqn:Es; cbn [lift abind]; [|discriminate].
  destruct (crun o (left_edge f + s_ml s) y2 (f_colw f - s_ml s - s_mr s) (qmax 0 (y2 - f_maxy f))) as [[[[[o' ht] fin] ps] ls]|] eqn:Ec; cbn [lift abind]; [|discriminate].
  set (g1 := mkG _ _ _ _). set (f1 := if qlt 0 ht then with_y f (y2 - ht)%Q false (s_mb s) else with_y f (f_y f) (f_starting f) (f_lastbottom f)).
  assert (H1 : exists y st lb, f1 = with_y f y st lb /\ (y <= f_y f)%Q /\ (0 <= lb <= mbot)%Q /\ (if qlt 0 ht then ((y2 - ht)%Q, false, s_mb s) else (f_y f, f_starting f, f_lastbottom f)) = (y, st, lb)).
  { unfold f1. destruct (qlt 0 ht) eqn:Eq.
    - exists (y2 - ht)%Q, false, (s_mb s). split; [reflexivity|]. destruct Hs. apply qlt_spec in Eq. split; [lra|auto].
    - exists (f_y f), (f_starting f), (f_lastbottom f). split; [reflexivity|]. split; [lra|auto]. }
  destruct H1 as (y & st & lb & -> & Hy & Hl & Hpos).
  destruct fin; cbn [r_delayed r_next].
  - rewrite Hpos. intros H. apply (IH l) in H; try assumption; [|cbn [with_todo with_y f_delayed]; rewrite Hd; reflexivity].
    destruct H as (-> & Hsb & Hyy & Hm). split; [reflexivity|]. split; [eapply same_but_trans; [|exact Hsb]; exists y, st, lb, (Datatypes.S (f_index f)), (f_delayed f ++ []); reflexivity|].
    split; [cbn [with_todo with_y f_y] in Hyy; lra|].
    match type of Hm with match ?e with _ => _ end => match goal with |- context [match ?e' with Some _ => _ | None => None end] => change e with e' in Hm; destruct e' as [[q [[z st'] lb']]|] end end; [|exact Hm].
    destruct Hm as (M1 & M2 & M3 & M4). split; [exact M1|]. split; [rewrite M2; unfold g1; cbn [g_parts]; rewrite <- app_assoc; reflexivity|]. auto.
  - intros H. injection H as <- <- <- <-. split; [reflexivity|]. split; [exists y, st, lb, (Datatypes.S (f_index f)), (f_delayed f ++ [DLeaf s (length (g_heap g)) (save o')]); reflexivity|]. split; [exact Hy|]. split; [reflexivity|]. cbn [with_todo with_y f_y]. apply low_lines in Ec. pose proof (proj2 (qmax_le 0 (y2 - f_maxy f))) as Hq. destruct Hs as [[Hs1 Hs2] _].
    destruct (qlt 0 ht) eqn:Eq; injection Hpos as <- _ _; [lra|]. apply ContentFlow.qlt_false in Eq. assert ((f_y f <= y2 + s_mt s + f_lastbottom f)%Q) by (unfold y2, y1; destruct (f_starting f); cbn [negb andb]; lra). clearbody y2. lra.
Qed.

(** A content of these, before its first run or when it finished in one. *)
Definition ready (l : list (style * E)) (c : content) : Prop :=
  c_elems c = leaves l /\ c_cols c = 1 /\ c_gap c = None /\
  match c_part c with
  | None => True
  | Some f => f_elems f = leaves l /\ f_cols f = 1 /\ f_gapspec f = None /\ f_sindex f = 0 /\ f_sdelayed f = []
  end.
Definition gap_of (w : Q) : Q := qmax (w / 25) 7.
Definition colw_of (w : Q) : Q := ((w - gap_of w * (inject_Z (Z.of_nat 1) - 1)) / inject_Z (Z.of_nat 1))%Q.
Definition left_of (x w : Q) : Q := (x + inject_Z (Z.of_nat 0) * (colw_of w + gap_of w))%Q.
Notation run := (run start crun save restore).
Lemma run_leaves fuel l x y w h c c' o : ready l c -> Forall (fun p => good (fst p)) l -> run fuel x y w h c = Done (c', o) ->
  (0 <= o_height o)%Q /\
  match stack (left_of x w) (colw_of w) (y - h) l y true 0 with
  | Some (ps, (z, _, _)) => o_parts o = ps /\ o_height o = (y - z)%Q /\ c_finished c' = true /\ ready l c'
  | None => c_finished c' = c_finished c /\ (h - 30 < o_height o)%Q
  end.
Proof.
  intros (H1 & H2 & H3 & H4) Hg. unfold Content.run.
  match goal with |- abind ?e _ = _ -> _ => destruct e as [f| |] eqn:Ef end; cbn [abind]; try discriminate.
  assert (Hf : f_elems f = leaves l /\ f_delayed f = [] /\ f_lastbottom f = 0%Q /\ f_index f = 0 /\ left_edge f = left_of x w /\ f_colw f = colw_of w /\ f_maxy f = (y - h)%Q /\ f_y f = y /\ f_miny f = y /\
    f_starting f = true /\ f_cols f = 1 /\ f_column f = 0 /\ f_resetting f = false /\ f_will f = false /\ f_sindex f = 0 /\ f_sdelayed f = [] /\ f_gapspec f = None).
  { destruct (c_part c) as [p|].
    - destruct H4 as (P1 & P2 & P3 & P4 & P5). unfold setup in Ef. rewrite P2 in Ef. injection Ef as <-. unfold left_edge. cbn [f_elems f_delayed f_lastbottom f_index f_minx f_column f_colw f_gap f_maxy f_y f_miny f_starting f_cols f_resetting f_will f_sindex f_sdelayed f_gapspec].
      rewrite P1, P3, P4, P5. repeat (split; [reflexivity|]). reflexivity.
    - unfold new_part, setup in Ef. rewrite H1, H2, H3 in Ef. cbn [f_cols] in Ef. injection Ef as <-. unfold left_edge. cbn [f_elems f_delayed f_lastbottom f_index f_minx f_column f_colw f_gap f_maxy f_y f_miny f_starting f_cols f_resetting f_will f_sindex f_sdelayed f_gapspec].
      repeat (split; [reflexivity|]). reflexivity. }
  clear Ef. destruct Hf as (F1 & F2 & F3 & F4 & F5 & F6 & F7 & F8 & F9 & F10 & F11 & F12 & F13 & F14 & F15 & F16 & F17).
  destruct fuel as [|[|fuel]]; cbn [run_part loop abind]; try discriminate.
  destruct fuel as [|fuel]; cbn [add_delayed abind]; try discriminate.
  rewrite F2. cbn [nth_error abind after].
  match goal with |- context [add_elements ?s ?r ?sv ?rs ?rec ?n f [] ?g] => destruct (add_elements s r sv rs rec n f [] g) as [[a [[f1 anc1] g1]]| |] eqn:Ea end; cbn [abind]; try discriminate.
  apply (add_leaves _ _ l) in Ea; try assumption; [|rewrite F3; destruct small as (? & ? & _); lra]. rewrite F3, F4, F5, F6, F7, F8, F10 in Ea. cbn [skipn g_parts app] in Ea.
  destruct Ea as (-> & (y1 & st1 & lb1 & i1 & d1 & ->) & Hy & Hm).
  destruct (stack (left_of x w) (colw_of w) (y - h) l y true 0) as [[ps [[z st] lb]]|].
  - destruct Hm as (-> & M2 & M3 & M4). cbn [with_todo f_delayed] in M4. subst d1. cbn [after abind with_todo with_y f_resetting f_cols f_delayed]. rewrite F13, F11. cbn [negb andb Nat.ltb Nat.leb abind].
    intros H. injection H as <- <-. cbn [o_height o_parts c_finished with_todo with_y f_miny f_cols f_y] in *. rewrite F11, F9. cbn [Nat.ltb Nat.leb]. rewrite M3 in Hy |- *. rewrite M2. split; [lra|]. split; [reflexivity|]. split; [reflexivity|]. split; [reflexivity|].
    unfold ready. cbn [c_elems c_cols c_gap c_part with_todo with_y f_elems f_cols f_gapspec f_sindex f_sdelayed]. repeat (split; [assumption|]). assumption.
  - destruct Hm as [-> Hm]. cbn [after next_section with_todo with_y f_column f_cols f_resetting]. rewrite F12, F11, F13. cbn [Nat.eqb abind].
    intros H. injection H as <- <-. cbn [o_height c_finished with_section with_todo with_y f_miny f_cols f_y] in *. rewrite F11, F9. cbn [Nat.ltb Nat.leb]. split; [lra|]. split; [reflexivity|lra].
Qed.

(** What a part has of its own, and the same part higher up. *)
Definition raised (d : Q) (p p' : placed) : Prop :=
  match p, p' with
  | PlLeaf s x y w h o _ ht fin _, PlLeaf s' x' y' w' h' o' _ ht' fin' _ => s' = s /\ x' = x /\ w' = w /\ o' = o /\ fin' = fin /\ (y' == y + d)%Q /\ (h' == h)%Q /\ (ht' == ht)%Q
  | _, _ => False
  end.
(** Running at another height in a room of the same size. *)
Hypothesis run_moved : forall o x y y' w h h' o1 ht fin ps ls, (h' == h)%Q -> crun o x y w h = Ok (o1, ht, fin, ps, ls) ->
  exists o2 ht' ps' ls', crun o x y' w h' = Ok (o2, ht', fin, ps', ls') /\ (ht' == ht)%Q.
Lemma stack_moved left colw m m' d : (m' == m + d)%Q -> forall l y y' st lb lb' ps z st1 lb1, (y' == y + d)%Q -> (lb' == lb)%Q ->
  stack left colw m l y st lb = Some (ps, (z, st1, lb1)) ->
  exists ps' z' lb1', stack left colw m' l y' st lb' = Some (ps', (z', st1, lb1')) /\ (z' == z + d)%Q /\ Forall2 (raised d) ps ps'.
Proof.
  intros Hm. induction l as [|[s e] l IH]; intros y y' st lb lb' ps z st1 lb1 Hy Hlb; cbn [stack].
  - intros H. injection H as <- <- <- <-. exists [], y', lb'. auto.
  - set (y1 := if negb st && true then (y - s_mt s)%Q else y). set (y2 := if st then y1 else (y1 - lb)%Q).
    set (y1' := if negb st && true then (y' - s_mt s)%Q else y'). set (y2' := if st then y1' else (y1' - lb')%Q).
    assert (H2 : (y2' == y2 + d)%Q) by (unfold y2', y1', y2, y1; destruct st; cbn [negb andb]; lra). clearbody y2 y2'. clear y1 y1'.
    destruct (start e) as [o|]; [|discriminate].
    destruct (crun o (left + s_ml s) y2 (colw - s_ml s - s_mr s) (qmax 0 (y2 - m))) as [[[[[o1 ht] fin] p] ls]|] eqn:Ec; [|discriminate]. destruct fin; [|discriminate].
    assert (Hh : (qmax 0 (y2' - m') == qmax 0 (y2 - m))%Q) by (apply qmax_eq; lra).
    destruct (run_moved _ _ _ y2' _ _ _ _ _ _ _ _ Hh Ec) as (o2 & ht' & p' & ls' & -> & Hht).
    rewrite (qlt_eq 0 0 ht ht') by lra.
    destruct (qlt 0 ht).
    + destruct (stack left colw m l (y2 - ht)%Q false (s_mb s)) as [[q [[z0 st0] lb0]]|] eqn:Es; [|discriminate]. intros H. injection H as <- <- <- <-.
      destruct (IH (y2 - ht)%Q (y2' - ht')%Q false (s_mb s) (s_mb s) _ _ _ _ ltac:(lra) ltac:(lra) Es) as (ps' & z' & lb1' & -> & I1 & I2). exists (PlLeaf s (left + s_ml s) y2' (colw - s_ml s - s_mr s) (qmax 0 (y2' - m')) o o2 ht' true p' :: ps'), z', lb1'.
      split; [reflexivity|]. split; [exact I1|]. constructor; [|exact I2]. cbn. auto 10.
    + destruct (stack left colw m l y st lb) as [[q [[z0 st0] lb0]]|] eqn:Es; [|discriminate]. intros H. injection H as <- <- <- <-.
      destruct (IH y y' st lb lb' _ _ _ _ ltac:(lra) ltac:(lra) Es) as (ps' & z' & lb1' & -> & I1 & I2). exists (PlLeaf s (left + s_ml s) y2' (colw - s_ml s - s_mr s) (qmax 0 (y2' - m')) o o2 ht' true p' :: ps'), z', lb1'.
      split; [reflexivity|]. split; [exact I1|]. constructor; [|exact I2]. cbn. auto 10.
Qed.
Lemma stack_bounds left colw m : forall l y st lb ps z st1 lb1, Forall (fun p => good (fst p)) l -> (0 <= lb)%Q -> stack left colw m l y st lb = Some (ps, (z, st1, lb1)) ->
  (z <= y)%Q /\ Forall (fun p => (p_top p <= y)%Q /\ ((0 < p_height p)%Q -> (z <= p_top p - p_height p)%Q)) ps /\
  Forall2 (fun n p => exists x y w h o o' ht qs, start (snd n) = Ok o /\ p = PlLeaf (fst n) x y w h o o' ht true qs) l ps.
Proof.
  induction l as [|[s e] l IH]; intros y st lb ps z st1 lb1 Hg Hlb; cbn [stack].
  - intros H. injection H as <- <- <- <-. split; [lra|]. split; constructor.
  - inversion Hg as [|? ? G1 G2]; subst. cbn [fst] in G1. destruct G1 as [G1 G3].
    set (y1 := if negb st && true then (y - s_mt s)%Q else y). set (y2 := if st then y1 else (y1 - lb)%Q).
    assert (H2 : (y2 <= y)%Q) by (unfold y2, y1; destruct st; cbn [negb andb]; lra). clearbody y2. clear y1.
    destruct (start e) as [o|] eqn:Est; [|discriminate].
    destruct (crun o (left + s_ml s) y2 (colw - s_ml s - s_mr s) (qmax 0 (y2 - m))) as [[[[[o1 ht] fin] p] ls]|] eqn:Ec; [|discriminate]. destruct fin; [|discriminate].
    destruct (qlt 0 ht) eqn:Eq.
    + apply qlt_spec in Eq. destruct (stack left colw m l (y2 - ht)%Q false (s_mb s)) as [[q [[z0 st0] lb0]]|] eqn:Es; [|discriminate]. intros H. injection H as <- <- <- <-.
      destruct (IH _ _ _ _ _ _ _ G2 (proj1 G3) Es) as (I1 & I2 & I3). split; [lra|]. split.
      * constructor; [cbn [p_top p_height]; split; [exact H2|intros _; exact I1]|]. revert I2. apply Forall_impl. intros x [X1 X2]. split; [lra|exact X2].
      * constructor; [|exact I3]. cbn [fst snd]. exists (left + s_ml s)%Q, y2, (colw - s_ml s - s_mr s)%Q, (qmax 0 (y2 - m)), o, o1, ht, p. auto.
    + apply ContentFlow.qlt_false in Eq. destruct (stack left colw m l y st lb) as [[q [[z0 st0] lb0]]|] eqn:Es; [|discriminate]. intros H. injection H as <- <- <- <-.
      destruct (IH _ _ _ _ _ _ _ G2 Hlb Es) as (I1 & I2 & I3). split; [lra|]. split.
      * constructor; [cbn [p_top p_height]; split; [exact H2|intros X; lra]|]. exact I2.
      * constructor; [|exact I3]. cbn [fst snd]. exists (left + s_ml s)%Q, y2, (colw - s_ml s - s_mr s)%Q, (qmax 0 (y2 - m)), o, o1, ht, p. auto.
Qed.
Lemma stack_prefix left colw m : forall l1 l2 y st lb ps z st1 lb1, Forall (fun p => good (fst p)) (l1 ++ l2) -> (0 <= lb)%Q -> stack left colw m (l1 ++ l2) y st lb = Some (ps, (z, st1, lb1)) ->
  exists ps1 z1 st2 lb2, stack left colw m l1 y st lb = Some (ps1, (z1, st2, lb2)) /\ (z <= z1)%Q.
Proof.
  induction l1 as [|[s e] l1 IH]; intros l2 y st lb ps z st1 lb1 Hg Hlb; cbn [app stack].
  - intros H. apply stack_bounds in H; try assumption. exists [], y, st, lb. split; [reflexivity|apply H].
  - cbn [app] in Hg. inversion Hg as [|? ? G1 G2]; subst. cbn [fst] in G1. destruct G1 as [G1 G3].
    set (y1 := if negb st && true then (y - s_mt s)%Q else y). set (y2 := if st then y1 else (y1 - lb)%Q).
    destruct (start e) as [o|] eqn:Est; [|discriminate].
    destruct (crun o (left + s_ml s) y2 (colw - s_ml s - s_mr s) (qmax 0 (y2 - m))) as [[[[[o1 ht] fin] p] ls]|] eqn:Ec; [|discriminate]. destruct fin; [|discriminate].
    destruct (qlt 0 ht) eqn:Eq.
    + destruct (stack left colw m (l1 ++ l2) (y2 - ht)%Q false (s_mb s)) as [[q [[z0 st0] lb0]]|] eqn:Es; [|discriminate]. intros H. injection H as <- <- <- <-.
      destruct (IH _ _ _ _ _ _ _ _ G2 (proj1 G3) Es) as (ps1 & z1 & st2 & lb2 & -> & I). eauto 10.
    + destruct (stack left colw m (l1 ++ l2) y st lb) as [[q [[z0 st0] lb0]]|] eqn:Es; [|discriminate]. intros H. injection H as <- <- <- <-.
      destruct (IH _ _ _ _ _ _ _ _ G2 Hlb Es) as (ps1 & z1 & st2 & lb2 & -> & I). eauto 10.
Qed.

(** The box run to measure it and then again lower down, for the first of the
    elements of another one that was measured in the same rectangle: all are
    shown, in the height of that one. *)
Lemma measured_again fuel l1 l2 x y w h c1 o1 c2 o2 top c3 o3 : prefix l2 l1 -> Forall (fun p => good (fst p)) l1 ->
  run fuel x y w h (fresh_content (leaves l1) 1 None) = Done (c1, o1) -> (o_height o1 < h - 30)%Q ->
  run fuel x y w h (fresh_content (leaves l2) 1 None) = Done (c2, o2) -> run fuel x top w h c2 = Done (c3, o3) ->
  Forall (fun p => (p_top p <= top)%Q /\ ((0 < p_height p)%Q -> (top - o_height o1 <= p_top p - p_height p)%Q)) (o_parts o3) /\
  Forall2 (fun n p => exists x y w h o o' ht qs, start (snd n) = Ok o /\ p = PlLeaf (fst n) x y w h o o' ht true qs) l2 (o_parts o3).
Proof.
  intros [r ->] Hg R1 Hlow R2 R3. pose proof (proj1 (proj1 (Forall_app _ _ _) Hg)) as Hg2.
  assert (Y1 : ready (l2 ++ r) (fresh_content (leaves (l2 ++ r)) 1 None)) by (repeat split). assert (Y2 : ready l2 (fresh_content (leaves l2) 1 None)) by (repeat split).
  apply (run_leaves fuel (l2 ++ r)) in R1; try assumption. destruct R1 as [_ R1].
  destruct (stack (left_of x w) (colw_of w) (y - h) (l2 ++ r) y true 0) as [[ps1 [[z1 st1] lb1]]|] eqn:E1; [|destruct R1; lra].
  destruct R1 as (_ & -> & _ & _). clear Hlow. destruct (stack_prefix _ _ _ _ _ _ _ _ _ _ _ _ Hg (Qle_refl 0) E1) as (ps2 & z2 & st2 & lb2 & E2 & Hz).
  apply (run_leaves fuel l2) in R2; try assumption. destruct R2 as [_ R2]. rewrite E2 in R2. destruct R2 as (_ & _ & _ & Y3).
  apply (run_leaves fuel l2) in R3; try assumption. destruct R3 as [_ R3].
  destruct (stack_moved (left_of x w) (colw_of w) (y - h) (top - h) (top - y) ltac:(lra) l2 y top true 0 0 ps2 z2 st2 lb2 ltac:(lra) ltac:(lra) E2) as (ps3 & z3 & lb3 & E3 & Hz3 & _).
  rewrite E3 in R3. destruct R3 as (-> & _). destruct (stack_bounds _ _ _ _ _ _ _ _ _ _ _ Hg2 (Qle_refl 0) E3) as (B1 & B2 & B3). split; [|exact B3].
  revert B2. apply Forall_impl. intros p [P1 P2]. split; [exact P1|]. intros X. specialize (P2 X). lra.
Qed.
End Stack.
