(** Model of the methods of a document that add something over as many pages as
    it needs: pdfme/pdf.py 645-701 ([text]), 741-803 ([table]), 824-907
    ([content]), with the cursor of the pages (PageGeom.v).

    What is added is given by a function [orun] that runs it in a rectangle
    (x, y of the top, width and height), [ofin] (its [finished]) and [after],
    what adding it does to the cursor. *)
From Coq Require Import String QArith ZArith Lia Lqa.
From Verif Require Import Py PyStr Parser StreamProofs Margins PageGeom Content.
Open Scope list_scope.
Open Scope nat_scope.

(** ** Model *)
Section Flow.
Variable float_of : str -> res Q.
Context {O : Type}.
Variable orun : O -> Q -> Q -> Q -> Q -> res O.
Variable ofin : O -> bool.
Variable after : page -> O -> page.

(** What is added in one page: the index of the page, the rectangle, and the
    object after the run. *)
Record shown := mkShown { sh_page : nat; sh_x : Q; sh_y : Q; sh_w : Q; sh_h : Q; sh_obj : O }.
Definition set_page (i : nat) (p : page) (s : pages_state) : pages_state :=
  with_pages s (firstn i (ps_pages s) ++ p :: skipn (S i) (ps_pages s)).
(** pdf.py 645-677 [_text], 741-780 [_table], 824-858 [_content]; [move] is
    ['bottom'].  pdf.py 183-190: the current page. *)
Definition put (o : O) (x y w h : page -> option Q) (s : pages_state) : res (O * shown * pages_state) :=
  match nth_error (ps_pages s) (ps_index s) with
  | None => Err IndexError
  | Some p =>
      let '(p2, (x', y', w', h')) := position_and_size p (x p) (y p) (w p) (h p) in
      do o' <- orun o x' y' w' h';
      Ok (o', mkShown (ps_index s) x' y' w' h' o', set_page (ps_index s) (after p2 o') s)
  end.
(** pdf.py 696-701, 797-803, 870-876: the loop. *)
Fixpoint go_on (fuel : nat) (o : O) (s : pages_state) : ans (list shown * pages_state) :=
  if ofin o then Done ([], s)
  else match fuel with
       | 0 => Out
       | S fuel =>
           match add_page float_of s None None None with
           | (Err e, _) => Raise e
           | (Ok _, s1) =>
               run! (o1, sh, s2) <- lift (put o (fun p => Some (p_ml p)) (fun p => Some (p_mt p)) (fun p => Some (p_cw p)) (fun p => Some (p_ch p)) s1);
               run! (l, s3) <- go_on fuel o1 s2;
               Done (sh :: l, s3)
           end
       end.
(** pdf.py 679-701 [text], 782-803 [table], 860-876 [content]. *)
Definition flow (fuel : nat) (o : O) (s : pages_state) : ans (list shown * pages_state) :=
  run! (o1, sh, s1) <- lift (put o (fun p => Some (p_ml p)) (fun _ => None) (fun p => Some (p_cw p)) (fun _ => None) s);
  run! (l, s2) <- go_on fuel o1 s1;
  Done (sh :: l, s2).
End Flow.
Arguments shown : clear implicits.

(** pdf.py 640-643 at the end of [_add_text]: the cursor under a paragraph of
    this height. *)
Definition after_text (p : page) (h : Q) : page := move_down p h.
(** pdf.py 888-907 [_add_parts], 415-424: the parts of a table or of a content
    box are added one by one, and each moves the cursor. *)
Inductive bpart := BPar (h : Q) | BImg (x y w h : Q).
Definition add_part (p : page) (b : bpart) : page :=
  match b with BPar h => move_down p h | BImg x y _ h => move_down (set_cursor p x y) h end.
(** pdf.py 771-778, 849-856. *)
Definition after_box (p : page) (parts : list bpart) (height : Q) : page := move_down (fold_left add_part parts p) height.

(** ** Specification *)
(** A page as [add_page] makes them; the cursor is anywhere. *)
Definition geometry (p q : page) : Prop :=
  p_width p = p_width q /\ p_height p = p_height q /\ p_mt p = p_mt q /\ p_mb p = p_mb q /\ p_ml p = p_ml q /\ p_mr p = p_mr q /\
  p_cw p = p_cw q /\ p_ch p = p_ch q.
Definition good_page (p : page) : Prop := (p_cw p == p_width p - p_ml p - p_mr p)%Q /\ (p_ch p == p_height p - p_mt p - p_mb p)%Q.
(** The page that [add_page] makes with the settings of the document. *)
Definition default_page (s : pages_state) (p : page) : Prop :=
  (p_width p, p_height p) = (if ps_rot s then (ps_h s, ps_w s) else (ps_w s, ps_h s)) /\
  p_mt p = side_spec (lit "top") [] (ps_margin s) /\ p_mr p = side_spec (lit "right") [] (ps_margin s) /\
  p_mb p = side_spec (lit "bottom") [] (ps_margin s) /\ p_ml p = side_spec (lit "left") [] (ps_margin s) /\ good_page p.
(** Adding a page never raises. *)
Definition can_add (s : pages_state) : Prop :=
  only_sides (ps_margin s) /\ (forall i, exists n, page_number s i = Ok n) /\ forall f p, In f (ps_sections s) -> is_ok (f p) = true.

(** ** Proofs *)
Section Facts.
Variable float_of : str -> res Q.
Context {O : Type}.
Variable orun : O -> Q -> Q -> Q -> Q -> res O.
Variable ofin : O -> bool.
Variable after : page -> O -> page.
Hypothesis after_geometry : forall p o, geometry (after p o) p.

(** The settings that [add_page] uses. *)
Definition same_settings (s t : pages_state) : Prop :=
  ps_w s = ps_w t /\ ps_h s = ps_h t /\ ps_rot s = ps_rot t /\ ps_margin s = ps_margin t /\ ps_offset s = ps_offset t /\ ps_roman s = ps_roman t /\
  ps_sections s = ps_sections t.
Lemma same_refl s : same_settings s s.
Proof. repeat split. Qed.
Lemma same_trans s t u : same_settings s t -> same_settings t u -> same_settings s u.
Proof. unfold same_settings. intros (A1 & A2 & A3 & A4 & A5 & A6 & A7) (B1 & B2 & B3 & B4 & B5 & B6 & B7). repeat split; congruence. Qed.
Lemma can_add_same s t : same_settings s t -> can_add t -> can_add s.
Proof.
  intros (A1 & A2 & A3 & A4 & A5 & A6 & A7) (B1 & B2 & B3). unfold can_add. rewrite A4, A7. split; [exact B1|]. split; [|exact B3].
  intros i. destruct (B2 i) as (n & Hn). exists n. unfold page_number in *. now rewrite A5, A6.
Qed.
Lemma default_same s t p : same_settings s t -> default_page t p -> default_page s p.
Proof. intros (A1 & A2 & A3 & A4 & _). unfold default_page. now rewrite A1, A2, A3, A4. Qed.

Lemma geometry_trans p q r : geometry p q -> geometry q r -> geometry p r.
Proof. unfold geometry. intuition congruence. Qed.
Lemma default_geometry s p q : geometry p q -> default_page s q -> default_page s p.
Proof.
  unfold geometry, default_page, good_page. intros (A1 & A2 & A3 & A4 & A5 & A6 & A7 & A8). rewrite A1, A2, A3, A4, A5, A6, A7, A8. tauto.
Qed.
Lemma position_geometry p x y w h : geometry (fst (position_and_size p x y w h)) p.
Proof. unfold position_and_size. destruct x, y; cbn; repeat split. Qed.

(** One run on a page. *)
Definition rect_of (sh : shown O) : Q * Q * Q * Q := (sh_x sh, sh_y sh, sh_w sh, sh_h sh).
Definition runs_in (o : O) (sh : shown O) : Prop := orun o (sh_x sh) (sh_y sh) (sh_w sh) (sh_h sh) = Ok (sh_obj sh).
Lemma nth_set {A} (l : list A) i x a : nth_error l i = Some a -> nth_error (firstn i l ++ x :: skipn (S i) l) i = Some x.
Proof.
  intros H. assert (Hi : i < List.length l) by (apply nth_error_Some; congruence).
  rewrite nth_error_app2; rewrite firstn_length_le by lia; [|lia]. now rewrite Nat.sub_diag.
Qed.
Lemma nth_set_other {A} (l : list A) i j x : i < List.length l -> j <> i -> nth_error (firstn i l ++ x :: skipn (S i) l) j = nth_error l j.
Proof.
  intros H Hj. rewrite <- (firstn_skipn i l) at 3. destruct (Nat.lt_ge_cases j i).
  - rewrite !nth_error_app1; rewrite ?firstn_length_le by lia; auto.
  - rewrite !nth_error_app2; rewrite ?firstn_length_le by lia; try lia. destruct (j - i) as [|k] eqn:E; [lia|]. cbn [nth_error].
    assert (Hs : skipn i l = hd x (skipn i l) :: skipn (S i) l).
    { clear - H. revert l H. induction i as [|i IH]; intros [|a l] H; cbn [List.length] in H; try lia; [reflexivity|]. cbn [skipn]. apply IH. lia. }
    rewrite Hs. reflexivity.
Qed.
Lemma set_length {A} (l : list A) i x : i < List.length l -> List.length (firstn i l ++ x :: skipn (S i) l) = List.length l.
Proof. intros H. rewrite app_length, firstn_length_le by lia. cbn [List.length]. rewrite skipn_length. lia. Qed.

Lemma put_ok o x y w h s p : nth_error (ps_pages s) (ps_index s) = Some p ->
  forall o' sh s', put orun after o x y w h s = Ok (o', sh, s') ->
  sh_page sh = ps_index s /\ runs_in o sh /\ o' = sh_obj sh /\ ps_index s' = ps_index s /\ same_settings s' s /\
  List.length (ps_pages s') = List.length (ps_pages s) /\ (forall i, i <> ps_index s -> nth_error (ps_pages s') i = nth_error (ps_pages s) i) /\
  (let '(p2, r) := position_and_size p (x p) (y p) (w p) (h p) in rect_of sh = r /\ nth_error (ps_pages s') (ps_index s) = Some (after p2 o')).
Proof.
  intros Hp o' sh s' E. unfold put in E. rewrite Hp in E. destruct (position_and_size _ _ _ _ _) as [p2 [[[x' y'] w'] h']].
  destruct (orun o x' y' w' h') as [o1|] eqn:Er; [|discriminate]. cbn [bind] in E. injection E as <- <- <-.
  assert (Hi : ps_index s < List.length (ps_pages s)) by (apply nth_error_Some; congruence).
  unfold rect_of, runs_in, set_page. cbn. split; [reflexivity|]. split; [exact Er|]. split; [reflexivity|]. split; [reflexivity|].
  split; [repeat split|]. split; [now apply set_length|]. split; [intros i Hne; now apply nth_set_other|].
  split; [reflexivity|]. eapply nth_set, Hp.
Qed.
Lemma add_page_ok s : can_add s -> exists s' p n, add_page float_of s None None None = (Ok tt, s') /\
  s' = with_number (PageGeom.with_pages s (ps_pages s ++ [p])) (List.length (ps_pages s)) (Some n) /\ default_page s p /\ p_x p = p_ml p /\ (get_y p == p_mt p)%Q.
Proof.
  intros (H1 & H2 & H3). destruct (H2 (List.length (ps_pages s))) as (n & Hn).
  destruct (add_page_spec float_of s None None None (ps_w s) (ps_h s) [] n) as (s' & p & K1 & K2 & K3 & K4 & K5 & K6 & K7 & K8 & K9 & K10 & K11); auto.
  { split; [constructor|intros k []]. }
  exists s', p, n. split; [exact K1|]. split; [exact K2|]. split; [|auto]. unfold default_page, good_page. auto 10.
Qed.

(** The pages of the loop. *)
Inductive chain : O -> list (shown O) -> Prop :=
| chain_end o : ofin o = true -> chain o []
| chain_more o sh l : ofin o = false -> runs_in o sh -> chain (sh_obj sh) l -> chain o (sh :: l).
Definition whole_page (p : page) (sh : shown O) : Prop :=
  sh_x sh = p_ml p /\ (sh_y sh == p_height p - p_mt p)%Q /\ sh_w sh = p_cw p /\ sh_h sh = p_ch p.
Lemma go_on_ok : forall fuel o s l s', can_add s -> go_on float_of orun ofin after fuel o s = Done (l, s') ->
  chain o l /\ same_settings s' s /\ List.length (ps_pages s') = List.length (ps_pages s) + List.length l /\
  (forall i, i < List.length (ps_pages s) -> nth_error (ps_pages s') i = nth_error (ps_pages s) i) /\
  (l = [] -> s' = s) /\ (l <> [] -> S (ps_index s') = List.length (ps_pages s')) /\
  forall k sh, nth_error l k = Some sh -> sh_page sh = List.length (ps_pages s) + k /\
    exists p p2, nth_error (ps_pages s') (sh_page sh) = Some p /\ default_page s p /\ whole_page p sh /\
      geometry p2 p /\ p_x p2 = sh_x sh /\ p_yb p2 = sh_y sh /\ p = after p2 (sh_obj sh).
Proof.
  induction fuel as [|fuel IH]; intros o s l s' Hc E; cbn [go_on] in E; destruct (ofin o) eqn:Ef.
  1,3: injection E as <- <-; split; [now constructor|]; split; [apply same_refl|]; split; [cbn; lia|]; split; [auto|]; split; [auto|]; split; [congruence|];
    intros [|k] sh K; discriminate.
  { discriminate. }
  destruct (add_page_ok s Hc) as (s1 & p & n & K1 & K2 & K3 & K4 & K5). rewrite K1 in E.
  assert (Hs1 : same_settings s1 s) by (rewrite K2; repeat split).
  assert (Hp1 : nth_error (ps_pages s1) (ps_index s1) = Some p).
  { rewrite K2. cbn. rewrite nth_error_app2, Nat.sub_diag by lia. reflexivity. }
  destruct (put orun after o _ _ _ _ s1) as [[[o1 sh] s2]|] eqn:Ep; [|discriminate]. cbn [lift abind] in E.
  destruct (put_ok _ _ _ _ _ _ _ Hp1 _ _ _ Ep) as (P1 & P2 & P3 & P4 & P5 & P6 & P7 & P8).
  destruct (go_on float_of orun ofin after fuel o1 s2) as [[l' s3]| |] eqn:Eg; try discriminate. cbn [abind] in E. injection E as <- <-.
  assert (Hc2 : can_add s2) by (eapply can_add_same; [eapply same_trans; [exact P5|exact Hs1]|exact Hc]).
  destruct (IH _ _ _ _ Hc2 Eg) as (G1 & G2 & G3 & G4 & G5 & G6 & G7).
  assert (Hl1 : List.length (ps_pages s1) = S (List.length (ps_pages s))) by (rewrite K2; cbn; rewrite app_length; cbn; lia).
  assert (Hi1 : ps_index s1 = List.length (ps_pages s)) by (now rewrite K2).
  split; [constructor; [exact Ef|exact P2|]; now rewrite <- P3|]. split; [eapply same_trans; [exact G2|]; eapply same_trans; [exact P5|exact Hs1]|].
  split; [cbn [List.length]; lia|]. split.
  { intros i Hi. rewrite G4 by lia. rewrite P7 by lia. rewrite K2. cbn. now rewrite nth_error_app1 by lia. }
  split; [discriminate|]. split.
  { intros _. destruct l' as [|sh' l']; [rewrite (G5 eq_refl); lia|]. apply G6. discriminate. }
  intros [|k] sh' K; cbn [nth_error] in K.
  - injection K as <-. split; [lia|]. rewrite P1, Hi1.
    pose proof (position_geometry p (Some (p_ml p)) (Some (p_mt p)) (Some (p_cw p)) (Some (p_ch p))) as Hg.
    pose proof (position_spec p (Some (p_ml p)) (Some (p_mt p)) (Some (p_cw p)) (Some (p_ch p))) as Hsp.
    destruct (position_and_size _ _ _ _ _) as [p2 [[[x' y'] w'] h']]. cbn [fst] in Hg. destruct P8 as [P8 P9]. unfold rect_of in P8. injection P8 as R1 R2 R3 R4.
    destruct Hsp as (S1 & S2 & S3 & S4 & S5 & S6). exists (after p2 o1), p2. rewrite Hi1 in P9. split; [rewrite G4 by lia; exact P9|].
    pose proof (after_geometry p2 o1) as Ha. pose proof (geometry_trans _ _ _ Ha Hg) as Hag. split; [eapply default_geometry; [exact Hag|exact K3]|].
    destruct Hag as (A1 & A2 & A3 & A4 & A5 & A6 & A7 & A8). split.
    + unfold whole_page. rewrite A2, A3, A5, A7, A8, R1, R2, R3, R4. split; [exact S1|]. split; [lra|]. auto.
    + split; [|rewrite R1, R2, <- P3; auto]. destruct Ha as (B1 & B2 & B3 & B4 & B5 & B6 & B7 & B8). repeat split; congruence.
  - destruct (G7 _ _ K) as (F1 & p' & p2' & F2 & F3 & F4). split; [lia|]. exists p', p2'. split; [exact F2|]. split; [|exact F4].
    eapply default_same; [|exact F3]. destruct (same_trans _ _ _ P5 Hs1) as (A1 & A2 & A3 & A4 & A5 & A6 & A7). repeat split; congruence.
Qed.
End Facts.

(** ** The whole *)
Section Whole.
Variable float_of : str -> res Q.
Context {O : Type}.
Variable orun : O -> Q -> Q -> Q -> Q -> res O.
Variable ofin : O -> bool.
Variable after : page -> O -> page.
Hypothesis after_geometry : forall p o, geometry (after p o) p.

(** The rest of a page, from the cursor. *)
Definition rest_of_page (p : page) (sh : shown O) : Prop :=
  sh_x sh = p_ml p /\ sh_y sh = p_yb p /\ sh_w sh = p_cw p /\ (sh_y sh - sh_h sh == p_mb p)%Q.
Lemma flow_ok fuel o s p out s' : can_add s -> nth_error (ps_pages s) (ps_index s) = Some p -> flow float_of orun ofin after fuel o s = Done (out, s') ->
  exists first rest, out = first :: rest /\ runs_in orun o first /\ chain orun ofin (sh_obj first) rest /\
    sh_page first = ps_index s /\ rest_of_page p first /\
    same_settings s' s /\ List.length (ps_pages s') = List.length (ps_pages s) + List.length rest /\
    (forall i, i < List.length (ps_pages s) -> i <> ps_index s -> nth_error (ps_pages s') i = nth_error (ps_pages s) i) /\
    (forall k sh, nth_error rest k = Some sh -> sh_page sh = List.length (ps_pages s) + k /\
      exists q, nth_error (ps_pages s') (sh_page sh) = Some q /\ default_page s q /\ whole_page q sh) /\
    exists q q2, let l := last rest first in ps_index s' = sh_page l /\ nth_error (ps_pages s') (ps_index s') = Some q /\ geometry q2 q /\
      p_x q2 = sh_x l /\ p_yb q2 = sh_y l /\ q = after q2 (sh_obj l) /\ (rest = [] -> geometry q p).
Proof.
  intros Hc Hp E. unfold flow in E. destruct (put orun after o _ _ _ _ s) as [[[o1 sh] s1]|] eqn:Ep; [|discriminate]. cbn [lift abind] in E.
  destruct (put_ok _ _ _ _ _ _ _ _ _ Hp _ _ _ Ep) as (P1 & P2 & P3 & P4 & P5 & P6 & P7 & P8).
  destruct (go_on float_of orun ofin after fuel o1 s1) as [[l s2]| |] eqn:Eg; try discriminate. cbn [abind] in E. injection E as <- <-.
  assert (Hc1 : can_add s1) by (eapply can_add_same; [exact P5|exact Hc]).
  destruct (go_on_ok float_of orun ofin after after_geometry _ _ _ _ _ Hc1 Eg) as (G1 & G2 & G3 & G4 & G5 & G6 & G7).
  exists sh, l. split; [reflexivity|]. split; [exact P2|]. split; [now rewrite <- P3|]. split; [exact P1|].
  assert (Hi : ps_index s < List.length (ps_pages s)) by (apply nth_error_Some; congruence).
  pose proof (position_geometry p (Some (p_ml p)) None (Some (p_cw p)) None) as Hg.
  pose proof (position_spec p (Some (p_ml p)) None (Some (p_cw p)) None) as Hsp.
  destruct (position_and_size p (Some (p_ml p)) None (Some (p_cw p)) None) as [p2 [[[x' y'] w'] h']] eqn:Epos. cbn [fst] in Hg. destruct P8 as [P8 P9].
  unfold rect_of in P8. injection P8 as R1 R2 R3 R4. destruct Hsp as (S1 & S2 & S3 & S4 & S5 & S6).
  assert (Hy : y' = p_yb p) by (unfold position_and_size in Epos; cbn in Epos; injection Epos as <- <- <- <- <-; reflexivity).
  split; [unfold rest_of_page; rewrite R1, R2, R3, R4; auto|]. split; [eapply same_trans; [exact G2|exact P5]|]. split; [lia|].
  split; [intros i H1 H2; rewrite G4 by lia; apply P7, H2|]. split.
  { intros k sh' K. destruct (G7 _ _ K) as (F1 & q & q2 & F2 & F3 & F4 & _). split; [lia|]. exists q. split; [exact F2|]. split; [|exact F4].
    eapply default_same; [|exact F3]. destruct P5 as (A1 & A2 & A3 & A4 & A5 & A6 & A7). repeat split; congruence. }
  destruct l as [|a l'] using rev_ind.
  - rewrite (G5 eq_refl) in *. cbn [last]. exists (after p2 o1), p2. split; [congruence|]. rewrite P4. split; [exact P9|].
    pose proof (after_geometry p2 o1) as Ha. pose proof (geometry_trans _ _ _ Ha Hg) as Hag. split; [destruct Ha as (B1 & B2 & B3 & B4 & B5 & B6 & B7 & B8); repeat split; congruence|].
    rewrite R1, R2, <- P3. auto.
  - clear IHl'. rewrite last_last. destruct (G7 (List.length l') a) as (F1 & q & q2 & F2 & F3 & F4 & F5 & F6 & F7 & F8); [now rewrite nth_error_app2, Nat.sub_diag|].
    assert (Hx : ps_index s2 = sh_page a).
    { assert (S (ps_index s2) = List.length (ps_pages s2)) by (apply G6; destruct l'; discriminate). rewrite app_length in G3. cbn [List.length] in G3. lia. }
    exists q, q2. split; [exact Hx|]. rewrite Hx. split; [exact F2|]. split; [exact F5|]. split; [exact F6|]. split; [exact F7|]. split; [exact F8|].
    intros K. destruct l'; discriminate.
Qed.
End Whole.

(** ** The cursor after a box *)
Lemma after_box_geometry p parts h : geometry (after_box p parts h) p.
Proof.
  unfold after_box. assert (G : forall parts p, geometry (fold_left add_part parts p) p).
  { clear. induction parts as [|b parts IH]; intros p; cbn [fold_left]; [repeat split|]. eapply geometry_trans; [apply IH|]. destruct b; cbn; repeat split. }
  eapply geometry_trans; [|apply (G parts)]. repeat split.
Qed.
Lemma after_text_geometry p h : geometry (after_text p h) p.
Proof. repeat split. Qed.
(** Parts that are under the top of the box do not put the cursor over it. *)
Definition part_under (top : Q) (b : bpart) : Prop := match b with BPar h => (0 <= h)%Q | BImg _ y _ h => (0 < h /\ y + h <= top)%Q end.
Lemma parts_under top : forall parts p, (p_yb p <= top)%Q -> Forall (part_under top) parts -> (p_yb (fold_left add_part parts p) <= top)%Q.
Proof.
  induction parts as [|b parts IH]; intros p Hp Hf; cbn [fold_left]; [exact Hp|]. inversion Hf as [|? ? Hb Hr]; subst. apply IH; [|exact Hr].
  destruct b as [h|x y w h]; cbn in *; unfold get_y; cbn; lra.
Qed.
Definition part_height (b : bpart) : Q := match b with BPar h => h | BImg _ _ _ h => h end.
Lemma parts_strict top : forall parts p, (p_yb p <= top)%Q -> Forall (part_under top) parts -> (p_yb p < top \/ exists b, In b parts /\ 0 < part_height b)%Q ->
  (p_yb (fold_left add_part parts p) < top)%Q.
Proof.
  induction parts as [|b parts IH]; intros p Hp Hf Hs; cbn [fold_left]; [destruct Hs as [Hs|(b & [] & _)]; exact Hs|].
  inversion Hf as [|? ? Hb Hr]; subst. apply IH; [|exact Hr|].
  - destruct b as [h|x y w h]; cbn in *; unfold get_y; cbn; lra.
  - destruct Hs as [Hs|(c & [->|Hc] & Hs)]; [left|left|right; eauto]; destruct b as [h|x y w h] || destruct c as [h|x y w h]; cbn in *; unfold get_y; cbn; lra.
Qed.
