(** Invariants of the paragraph layout. *)
From Coq Require Import String QArith Lqa.
From Verif Require Import Py PyStr Gfx TextLayout.
Open Scope list_scope.

(** ** Specification: tokens and unbreakable chunks *)

(** The text as the reader of the document sees it: words with their style
    and ids, spaces and line breaks. *)
Inductive tok := TWord (y : style) (ids : list str) (w : str) | TSpace (y : style) | TBr.
Definition tok_of (y : style) (ids : list str) (w : str) : tok :=
  if isspace w then TSpace y else TWord y ids w.
Definition part_toks (p : cpart) : list tok :=
  match p with
  | CBr => [TBr]
  | CText t y ids => map (tok_of y ids) (tokenize t)
  | COther => []
  end.
Definition all_toks (content : list cpart) : list tok := flat_map part_toks content.
(** The tokens before and from word [w] of part [p] on. *)
Definition toks_at (content : list cpart) (p : nat) : list tok :=
  match nth_error content p with Some x => part_toks x | None => [] end.
Definition before (content : list cpart) (p w : nat) : list tok :=
  all_toks (firstn p content) ++ firstn w (toks_at content p).
Definition after (content : list cpart) (p w : nat) : list tok :=
  skipn w (toks_at content p) ++ all_toks (skipn (S p) content).

(** A chunk: words with nothing between them.  [scan] collects the chunks
    that are closed and the one that is open at the end. *)
Definition chunk := list (style * list str * str).
Definition close (d : list chunk) (o : chunk) : list chunk := match o with [] => d | _ => d ++ [o] end.
Fixpoint scan (d : list chunk) (o : chunk) (ts : list tok) : list chunk * chunk :=
  match ts with
  | [] => (d, o)
  | TWord y ids w :: r => scan d (o ++ [(y, ids, w)]) r
  | _ :: r => scan (close d o) [] r
  end.
Definition chunks (ts : list tok) : list chunk := let '(d, o) := scan [] [] ts in close d o.

(** The tokens of the parts of a line. *)
Definition ltoks (ps : list lpart) : list tok :=
  flat_map (fun p => map (tok_of (lp_style p) (lp_ids p)) (lp_words p)) ps.
Definition line_chunks (l : line) : list chunk := chunks (ltoks (l_parts l)).

(** ** Laws of [scan] *)

Lemma scan_app a : forall b d o, scan d o (a ++ b) = let '(d1, o1) := scan d o a in scan d1 o1 b.
Proof.
  induction a as [|t a IH]; intros b d o; cbn [app scan]; [reflexivity|]. destruct t; apply IH.
Qed.
Lemma close_app d1 d2 o : close (d1 ++ d2) o = d1 ++ close d2 o.
Proof. destruct o; cbn; [reflexivity|]. now rewrite app_assoc. Qed.
Lemma scan_base a : forall d1 d2 o, scan (d1 ++ d2) o a = let '(d, o') := scan d2 o a in (d1 ++ d, o').
Proof.
  induction a as [|t a IH]; intros d1 d2 o; cbn [scan]; [reflexivity|].
  destruct t; rewrite ?close_app; apply IH.
Qed.
Lemma scan_from a d : scan d [] a = let '(d', o') := scan [] [] a in (d ++ d', o').
Proof. rewrite <- (app_nil_r d) at 1. apply scan_base. Qed.
(** Cutting where no chunk is open. *)
Lemma chunks_cut a b d : scan [] [] a = (d, []) -> chunks (a ++ b) = d ++ chunks b.
Proof.
  intros H. unfold chunks. rewrite scan_app, H, scan_from.
  destruct (scan [] [] b) as [d' o']. apply close_app.
Qed.

Definition is_word (t : tok) : bool := match t with TWord _ _ _ => true | _ => false end.
Definition words_of (ts : list tok) : chunk :=
  flat_map (fun t => match t with TWord y ids w => [(y, ids, w)] | _ => [] end) ts.
Lemma scan_words ts : forall d o, forallb is_word ts = true -> scan d o ts = (d, o ++ words_of ts).
Proof.
  induction ts as [|t ts IH]; intros d o H; cbn [scan words_of flat_map forallb] in *.
  - now rewrite app_nil_r.
  - apply andb_true_iff in H as [H1 H2]. destruct t; try discriminate.
    rewrite IH by exact H2. rewrite <- app_assoc. reflexivity.
Qed.
Lemma words_of_app a b : words_of (a ++ b) = words_of a ++ words_of b.
Proof. apply flat_map_app. Qed.

Lemma before_after content p w : before content p w ++ after content p w = all_toks content.
Proof.
  unfold before, after, all_toks, toks_at. rewrite <- app_assoc. rewrite (app_assoc (firstn w _)).
  rewrite firstn_skipn. rewrite <- (firstn_skipn p content) at 4. rewrite flat_map_app. f_equal.
  revert content; induction p as [|p IH]; intros [|x content]; try reflexivity.
  - cbn [nth_error skipn]. apply IH.
Qed.
Lemma before_S content p : before content (S p) 0 = before content p 0 ++ toks_at content p.
Proof.
  unfold before. cbn [firstn]. rewrite !app_nil_r. unfold all_toks, toks_at.
  revert content; induction p as [|p IH]; intros [|x content]; try reflexivity.
  - cbn. now rewrite app_nil_r.
  - cbn [firstn flat_map nth_error]. rewrite IH. now rewrite app_assoc.
Qed.
Lemma before_w content p w : before content p w = before content p 0 ++ firstn w (toks_at content p).
Proof. unfold before. cbn [firstn]. now rewrite app_nil_r. Qed.
Lemma before_full content p w : (List.length (toks_at content p) <= w)%nat ->
  before content p w = before content (S p) 0.
Proof. intros H. rewrite before_w, before_S, firstn_all2 by exact H. reflexivity. Qed.
Lemma before_step content p w t : nth_error (toks_at content p) w = Some t ->
  before content p (S w) = before content p w ++ [t].
Proof.
  intros H. unfold before. rewrite <- app_assoc. f_equal.
  revert H. generalize (toks_at content p) as l.
  induction w as [|w IH]; intros [|x l] H; cbn in H; try discriminate.
  - injection H as ->. reflexivity.
  - change (x :: firstn (S w) l = (x :: firstn w l) ++ [t]). rewrite (IH l H). reflexivity.
Qed.

(** Tokens of a text: spaces are exactly one space character. *)
Lemma isspace_sp : isspace sp = true. Proof. reflexivity. Qed.
Lemma tokenize_word s w : In w (tokenize s) -> isspace w = true -> w = sp.
Proof.
  unfold tokenize. rewrite in_map_iff. intros (x & <- & _). destruct (isspace x) eqn:E; [reflexivity|].
  congruence.
Qed.

Section Layout.
Variable round3 : Q -> Q.
Variable text_w : fkey -> str -> Q.
Variable space_w : fkey -> Q.
Variable fref : fkey -> str.
Notation add_word := (add_word text_w space_w).
Notation add_accumulated := (add_accumulated text_w space_w).
Notation next_add := (next_add text_w space_w).
Notation part_add := (part_add text_w space_w).
Notation part_pop := (part_pop text_w space_w).
Notation run := (run round3 text_w space_w fref).
Notation runs := (runs round3 text_w space_w fref).
Notation parts_loop := (parts_loop round3 text_w space_w fref).
Notation words_loop := (words_loop round3 text_w space_w fref).
Notation add_current_line := (add_current_line round3 space_w fref).
Notation setup_list := (setup_list text_w).

(** ** Induction principle for runs *)

(** The line that follows a finished one (text.py 713-718). *)
Definition relimit (mx : Q) (nl : line) : line :=
  mkLine mx (l_parts nl) (l_top nl)
    (match l_next nl with
     | Some n => Some (mkLine mx (l_parts n) (l_top n) (l_next n) (l_lws n) (l_first n) (l_started n))
     | None => None
     end) (l_lws nl) (l_first nl) (l_started nl).
Definition limit_of (c : config) (d : dyn) : res Q :=
  match c_list c with
  | None => Ok (d_width d)
  | Some _ => match d_lindent d with Some q => Ok (d_width d - q)%Q | None => Err TypeError end
  end.
(** The line and state when a text part begins (text.py 663-694). *)
Definition begin_part (c : config) (y : style) (ids : list str) (d : dyn) (cur : line) : res (dyn * line) :=
  do dl <- match c_list c with
           | Some li => if d_listdone d then Ok (d, add_line_part cur y ids) else setup_list li d (add_line_part cur y ids)
           | None => Ok (d, add_line_part cur y ids)
           end;
  let '(d0, cur2) := dl in Ok (add_used d0 (t_font (y_state y)), cur2).

Record run_ind (c : config) (G : nat -> dyn -> line -> Prop) (W : nat -> nat -> dyn -> line -> Prop)
    (F : dyn -> Prop) : Prop := {
  ri_other : forall p d cur, nth_error (c_content c) p = Some COther -> G p d cur -> G (S p) d cur;
  ri_br : forall p d cur go d1, nth_error (c_content c) p = Some CBr -> G p d cur ->
    add_current_line c (set_added d (S p) 0) cur true = Ok (go, d1) ->
    if go then G (S p) d1 (new_line (d_width d1) (c_lh c)) else F d1;
  ri_text : forall p d cur t y ids d1 cur1, nth_error (c_content c) p = Some (CText t y ids) -> G p d cur ->
    begin_part c y ids d cur = Ok (d1, cur1) -> W p (d_word d1) d1 cur1;
  ri_word : forall p i d cur t y ids w st cur1, nth_error (c_content c) p = Some (CText t y ids) ->
    nth_error (tokenize t) i = Some w -> W p i d cur -> add_word (c_align c) cur w = Ok (st, cur1) ->
    match st with
    | Added => W p (S i) (set_added d p (S i)) cur1
    | Finished nl =>
        forall go d1 mx, add_current_line c d cur1
            ((S p =? List.length (c_content c))%nat && (S i =? List.length (tokenize t))%nat) = Ok (go, d1) ->
          limit_of c d1 = Ok mx ->
          if go then W p (S i) d1 (relimit mx nl) else F d1
    | _ => W p (S i) d cur1
    end;
  ri_end : forall p i d cur t y ids, nth_error (c_content c) p = Some (CText t y ids) ->
    (List.length (tokenize t) <= i)%nat -> W p i d cur -> G (S p) (set_word d 0) cur;
  ri_fin : forall p d cur go d1, (List.length (c_content c) <= p)%nat -> G p d cur ->
    add_current_line c d cur true = Ok (go, d1) -> F (if go then set_fin d1 else d1) }.

Lemma nth_skipn {A} (l : list A) : forall i x r, skipn i l = x :: r -> nth_error l i = Some x /\ skipn (S i) l = r.
Proof.
  induction l as [|a l IH]; intros [|i] x r H; cbn in H; try discriminate.
  - injection H as -> ->. split; reflexivity.
  - apply IH in H. exact H.
Qed.

Lemma words_loop_ind c G W F (R : run_ind c G W F) p t y ids :
  nth_error (c_content c) p = Some (CText t y ids) ->
  forall ws i d cur go d1 cur1, skipn i (tokenize t) = ws -> W p i d cur ->
  words_loop c p (S p =? List.length (c_content c))%nat i ws d cur = Ok (go, d1, cur1) ->
  if go then exists j, (List.length (tokenize t) <= j)%nat /\ W p j d1 cur1 else F d1.
Proof.
  intros Hp. induction ws as [|w ws IH]; intros i d cur go d1 cur1 Hs HW E; cbn [TextLayout.words_loop] in E.
  - injection E as <- <- <-. exists i. split; [|exact HW].
    assert (H := f_equal (@List.length _) Hs). rewrite skipn_length in H. cbn in H. lia.
  - apply nth_skipn in Hs as [Hn Hs].
    assert (Hl : (match ws with [] => true | _ => false end) = (S i =? List.length (tokenize t))%nat).
    { assert (H := f_equal (@List.length _) Hs). rewrite skipn_length in H.
      assert (H2 : (i < List.length (tokenize t))%nat) by (apply nth_error_Some; congruence).
      destruct ws; cbn in H; symmetry; [apply Nat.eqb_eq|apply Nat.eqb_neq]; lia. }
    destruct (add_word (c_align c) cur w) as [[st cur2]|e] eqn:Ea; [|discriminate]. cbn [bind] in E.
    pose proof (ri_word _ _ _ _ R p i d cur t y ids w st cur2 Hp Hn HW Ea) as Hst.
    destruct st as [| | |nl].
    + exact (IH _ _ _ _ _ _ Hs Hst E).
    + exact (IH _ _ _ _ _ _ Hs Hst E).
    + exact (IH _ _ _ _ _ _ Hs Hst E).
    + rewrite Hl in E.
      destruct (add_current_line c d cur2 _) as [[go1 d2]|e] eqn:El; [|discriminate]. cbn [bind] in E.
      fold (limit_of c d2) in E. destruct (limit_of c d2) as [mx|e] eqn:Em; [|discriminate]. cbn [bind] in E.
      fold (relimit mx nl) in E. specialize (Hst go1 d2 mx eq_refl Em).
      destruct go1.
      * exact (IH _ _ _ _ _ _ Hs Hst E).
      * injection E as <- <- <-. exact Hst.
Qed.

Lemma add_part_ind c G W F (R : run_ind c G W F) p t y ids d cur go d1 cur1 :
  nth_error (c_content c) p = Some (CText t y ids) -> G p d cur ->
  add_part round3 text_w space_w fref c p t y ids d cur = Ok (go, d1, cur1) ->
  if go then G (S p) d1 cur1 else F d1.
Proof.
  intros Hp HG E. unfold add_part in E.
  set (x := match c_list c with Some _ => _ | None => _ end) in E.
  assert (Hb : begin_part c y ids d cur = do dl <- x; let '(d0, cur2) := dl in Ok (add_used d0 (t_font (y_state y)), cur2))
    by reflexivity.
  destruct x as [[d0 cur2]|e]; [|discriminate]. cbn [bind] in E, Hb.
  pose proof (ri_text _ _ _ _ R p d cur t y ids _ _ Hp HG Hb) as HW.
  destruct (words_loop _ _ _ _ _ _ _) as [[[go1 d2] cur3]|e] eqn:Ew; [|discriminate]. cbn [bind] in E.
  pose proof (words_loop_ind _ _ _ _ R p t y ids Hp _ _ _ _ _ _ _ eq_refl HW Ew) as H.
  destruct go1; injection E as <- <- <-; [|exact H].
  destruct H as (j & Hj & HW2). exact (ri_end _ _ _ _ R p j d2 cur3 t y ids Hp Hj HW2).
Qed.

Lemma parts_loop_ind c G W F (R : run_ind c G W F) : forall ps p d cur go d1 cur1,
  skipn p (c_content c) = ps -> G p d cur -> parts_loop c p ps d cur = Ok (go, d1, cur1) ->
  if go then exists q, (List.length (c_content c) <= q)%nat /\ G q d1 cur1 else F d1.
Proof.
  induction ps as [|x ps IH]; intros p d cur go d1 cur1 Hs HG E; cbn [TextLayout.parts_loop] in E.
  - injection E as <- <- <-. exists p. split; [|exact HG].
    assert (H := f_equal (@List.length _) Hs). rewrite skipn_length in H. cbn in H. lia.
  - apply nth_skipn in Hs as [Hn Hs]. destruct x as [|t y ids|].
    + destruct (add_current_line c (set_added d (S p) 0) cur true) as [[go1 d2]|e] eqn:El; [|discriminate].
      cbn [bind] in E. pose proof (ri_br _ _ _ _ R p d cur go1 d2 Hn HG El) as H.
      destruct go1; [exact (IH _ _ _ _ _ _ Hs H E)|]. injection E as <- <- <-. exact H.
    + destruct (add_part _ _ _ _ _ _ _ _ _ _ _) as [[[go1 d2] cur2]|e] eqn:Ea; [|discriminate]. cbn [bind] in E.
      pose proof (add_part_ind _ _ _ _ R p t y ids d cur go1 d2 cur2 Hn HG Ea) as H.
      destruct go1; [exact (IH _ _ _ _ _ _ Hs H E)|]. injection E as <- <- <-. exact H.
    + exact (IH _ _ _ _ _ _ Hs (ri_other _ _ _ _ R p d cur Hn HG) E).
Qed.

Definition first_line (c : config) (d : dyn) (w : Q) : line :=
  new_line (w - (if d_first d then c_indent c else 0))%Q (c_lh c).
Theorem run_induction c G W F (R : run_ind c G W F) d w h d' :
  G (d_part d) (init_run d w h) (first_line c d w) -> run c d w h = Ok d' -> F d'.
Proof.
  intros HG E. unfold TextLayout.run in E. cbn [init_run d_part d_first] in E. fold (first_line c d w) in E.
  destruct (parts_loop _ _ _ _ _) as [[[go d1] cur1]|e] eqn:Ep; [|discriminate]. cbn [bind] in E.
  pose proof (parts_loop_ind _ _ _ _ R _ _ _ _ _ _ _ eq_refl HG Ep) as H.
  destruct go.
  - destruct H as (q & Hq & HG2).
    destruct (add_current_line c d1 cur1 true) as [[go2 d2]|e] eqn:El; [|discriminate]. cbn [bind] in E.
    injection E as <-. exact (ri_fin _ _ _ _ R q d1 cur1 go2 d2 Hq HG2 El).
  - injection E as <-. exact H.
Qed.
End Layout.

(** ** Tokens of a text *)

Lemma raw_tokens_hd s : match raw_tokens s with
  | [] => s = []
  | [] :: _ => False
  | (d :: _) :: _ => exists r, s = d :: r
  end.
Proof.
  induction s as [|c s IH]; cbn [raw_tokens]; [reflexivity|].
  destruct (raw_tokens s) as [|[|d w] l]; [eauto|destruct IH|].
  destruct (Bool.eqb (c =? 32)%N (d =? 32)%N); eauto.
Qed.
Definition spaces (w : str) : Prop := Forall (fun ch => ch = 32%N) w.
Definition no_spaces (w : str) : Prop := Forall (fun ch => ch <> 32%N) w.
Inductive alternate : list str -> Prop :=
| alt_nil : alternate []
| alt_one w : w <> [] -> spaces w \/ no_spaces w -> alternate [w]
| alt_cons u v l : u <> [] -> (spaces u /\ no_spaces v) \/ (no_spaces u /\ spaces v) -> alternate (v :: l) -> alternate (u :: v :: l).
Lemma alternate_hd u l : alternate (u :: l) -> u <> [] /\ (spaces u \/ no_spaces u).
Proof. intros H. inversion H as [|? A B|? ? ? A B C]; subst; split; auto. destruct B as [[]|[]]; auto. Qed.
Lemma raw_tokens_alt s : alternate (raw_tokens s) /\ List.concat (raw_tokens s) = s.
Proof.
  induction s as [|c s [IH1 IH2]]; cbn [raw_tokens]; [split; [constructor|reflexivity]|].
  destruct (raw_tokens s) as [|[|d w] l] eqn:E.
  - cbn in IH2. subst s. split; [|reflexivity]. constructor; [discriminate|].
    destruct (N.eq_dec c 32); [left|right]; repeat constructor; assumption.
  - apply alternate_hd in IH1 as [[] _]. reflexivity.
  - destruct (alternate_hd _ _ IH1) as [_ Hd].
    destruct (Bool.eqb (c =? 32)%N (d =? 32)%N) eqn:Eb.
    + apply Bool.eqb_prop in Eb. split; [|cbn in *; now rewrite IH2].
      assert (K : (spaces (d :: w) -> spaces (c :: d :: w)) /\ (no_spaces (d :: w) -> no_spaces (c :: d :: w))).
      { split; intros K; constructor; try exact K; inversion K; subst.
        - rewrite N.eqb_refl in Eb. now apply N.eqb_eq.
        - intros ->. rewrite N.eqb_refl in Eb. symmetry in Eb. apply N.eqb_eq in Eb. contradiction. }
      inversion IH1 as [|? A B|? v l' A B C]; subst.
      * constructor; [discriminate|]. tauto.
      * constructor; [discriminate| |exact C]. tauto.
    + split; [|cbn in *; now rewrite IH2].
      constructor; [discriminate| |exact IH1].
      destruct (N.eqb_spec c 32) as [Hc|Hc]; destruct (N.eqb_spec d 32) as [Hd2|Hd2]; try discriminate.
      * left. split; [now constructor|]. destruct Hd as [Hd|Hd]; [|exact Hd]. inversion Hd. congruence.
      * right. split; [now constructor|]. destruct Hd as [Hd|Hd]; [exact Hd|]. inversion Hd. congruence.
Qed.
Lemma alternate_app a l : alternate (a ++ l) -> alternate l.
Proof.
  induction a as [|x a IH]; [auto|]. intros H. apply IH. cbn [app] in H. remember (a ++ l) as m.
  inversion H; subst; [constructor|assumption].
Qed.
Lemma spaces_not w : w <> [] -> spaces w -> no_spaces w -> False.
Proof. destruct w; [congruence|]. intros _ A B. inversion A; inversion B; congruence. Qed.
Lemma raw_tokens_spec s : List.concat (raw_tokens s) = s /\
  (forall w, In w (raw_tokens s) -> w <> [] /\ (spaces w \/ no_spaces w)) /\
  (forall a u v b, raw_tokens s = a ++ u :: v :: b -> spaces u -> no_spaces v) /\
  (forall a u v b, raw_tokens s = a ++ u :: v :: b -> no_spaces u -> spaces v).
Proof.
  destruct (raw_tokens_alt s) as [H1 H2]. split; [exact H2|]. split; [|split].
  - intros w Hw. apply in_split in Hw as (a & b & E). rewrite E in H1. apply alternate_app in H1. exact (alternate_hd _ _ H1).
  - intros a u v b E Hu. rewrite E in H1. apply alternate_app in H1. inversion H1 as [| |? ? ? A B C]; subst.
    destruct B as [[_ B]|[B _]]; [exact B|]. destruct (spaces_not u A Hu B).
  - intros a u v b E Hu. rewrite E in H1. apply alternate_app in H1. inversion H1 as [| |? ? ? A B C]; subst.
    destruct B as [[B _]|[_ B]]; [|exact B]. destruct (spaces_not u A B Hu).
Qed.
