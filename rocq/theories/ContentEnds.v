(** Invariants: a box of one column, whose paragraphs and tables fit in the
    height of a rectangle, comes nearer to its end with every such rectangle,
    and no run of it fails. *)
From Coq Require Import QArith ZArith Lia Lqa List Bool.
From Verif Require Import Py Table Content ContentFlow.
Import ListNotations.
Open Scope list_scope.
Open Scope nat_scope.

Section Ends.
Context {E O S P L : Type}.
Variable start : E -> res O.
Variable crun : O -> Q -> Q -> Q -> Q -> res (O * Q * bool * list P * list L).
Variable save : O -> S.
Variable restore : O -> S -> O.
(** How much an element, and its object, still have to do, when the rectangles
    for it are at least [H] high and at most [W] wide. *)
Variable els : E -> Prop.
Variable inv : O -> Prop.
Variable size : E -> nat.
Variable m : O -> nat.
Variable H W : Q.
Hypothesis start_ok : forall e, els e -> exists o, start e = Ok o /\ inv o /\ m o <= size e.
Hypothesis crun_ok : forall o x y w h, inv o -> exists o' ht fin ps ls, crun o x y w h = Ok (o', ht, fin, ps, ls) /\
  (fin = false -> inv o' /\ m o' <= m o /\ ((H <= h)%Q -> (w <= W)%Q -> m o' < m o)).
Hypothesis save_ok : forall o, restore o (save o) = o.

Notation elem := (@elem E).
Notation delem := (@delem E S).
Notation part := (@part E S).
Notation glob := (@glob O P L).
Notation work := (@work E O).
Notation cmem := (@cmem E S).
Notation todo := (todo restore).
Notation pend := (pend restore).
Notation cur := (cur restore).
Notation saved := (saved restore).
Notation flat := (@flat E O).
Notation later := (@later E O S).

(** The elements: paragraphs and tables, and boxes of one column with
    something in them. *)
Definition side_ok (s : style) : Prop := (0 <= s_ml s /\ 0 <= s_mr s)%Q.
Fixpoint good (el : elem) : Prop :=
  match el with
  | Leaf s e => side_ok s /\ els e
  | Child s cols _ l => cols = 1 /\ flat l <> [] /\ fold_right (fun e acc => good e /\ acc) True l
  | _ => False
  end.
Definition goods (l : list elem) : Prop := fold_right (fun e acc => good e /\ acc) True l.
Lemma goods_nth l i el : goods l -> nth_error l i = Some el -> good el.
Proof.
  revert i. induction l as [|a l IH]; intros [|i] Hl Hn; try discriminate; destruct Hl as [Ha Hl].
  - cbn in Hn. injection Hn as <-. exact Ha.
  - exact (IH i Hl Hn).
Qed.
(** The work that is left. *)
Definition wk (k : work) : nat := match k with New e => Datatypes.S (size e) | Old o => Datatypes.S (m o) | Pic _ _ => 0 end.
Definition wt (l : list work) : nat := list_sum (map wk l).
Lemma wt_app a b : wt (a ++ b) = wt a + wt b.
Proof. unfold wt. now rewrite map_app, list_sum_app. Qed.
Lemma wt_cons k l : wt (k :: l) = wk k + wt l.
Proof. reflexivity. Qed.

Lemma elem_pos : forall el, good el -> Forall (fun k => 0 < wk k) (flat_elem el).
Proof.
  fix IH 1. intros [s e|s id iw ih|s id l|s n gap l] Hg; cbn [flat_elem good] in *; try contradiction; [constructor; [cbn [wk]; lia|constructor]|].
  destruct Hg as (_ & _ & Hl). revert l Hl. fix IH2 1. intros [|b l] Hl; [constructor|]. destruct Hl as [Hb Hl]. cbn [flat_map]. apply Forall_app.
  split; [exact (IH b Hb)|exact (IH2 l Hl)].
Qed.
Lemma flat_pos l : goods l -> Forall (fun k => 0 < wk k) (flat l).
Proof.
  induction l as [|a l IH]; intros Hl; [constructor|]. destruct Hl as [Ha Hl]. cbn [ContentFlow.flat flat_map]. apply Forall_app. split; [exact (elem_pos a Ha)|exact (IH Hl)].
Qed.

Definition dgood (heap : list O) (d : delem) : Prop :=
  match d with DLeaf s ref sv => side_ok s /\ exists o, nth_error heap ref = Some o /\ inv (restore o sv) | _ => False end.
Fixpoint mgood (heap : list O) (l : list elem) (i : nat) (d : list delem) (rm : cmem) : Prop :=
  match rm with
  | [] => d = [] \/ exists x, d = [x] /\ dgood heap x
  | (i', d') :: rm' => d = [] /\ exists s n gap l', nth_error l i = Some (Child s n gap l') /\ mgood heap l' i' d' rm' /\ 0 < wt (todo heap l' i' d' rm')
  end.
Record quiet (f : part) : Prop := mkQuiet {
  q_cols : f_cols f = 1; q_column : f_column f = 0; q_will : f_will f = false; q_reset : f_resetting f = false;
  q_partial : f_partial f = None; q_elems : goods (f_elems f); q_idx : f_sindex f <= f_index f }.
Fixpoint around (l : list elem) (anc : list part) : Prop :=
  match anc with
  | [] => True
  | p :: rest => quiet p /\ f_delayed p = [] /\ (exists s n gap, nth_error (f_elems p) (f_index p) = Some (Child s n gap l)) /\ around (f_elems p) rest
  end.
(** A box at the top of a rectangle of full size. *)
Definition full (f : part) : Prop := f_starting f = true /\ (H <= f_y f - f_maxy f /\ f_colw f <= W)%Q.
(** A box from which to go on in the next run. *)
Definition resumes (heap : list O) (l : list elem) (p : part) (t : list work) : Prop :=
  saved heap p = t /\ mgood heap (f_elems p) (f_sindex p) (f_sdelayed p) (rev (f_memory p)) /\ f_elems p = l /\ f_cols p = 1 /\ f_partial p = None.
Definition stopped (f : part) (anc : list part) (g : glob) (f' : part) (anc' : list part) (g' : glob) : Prop :=
  length anc' = length anc /\ exists rem, resumes (g_heap g') (f_elems (root f anc)) (root f' anc') (rem ++ later anc) /\
    wt rem <= wt (cur (g_heap g) f) /\ (full f -> wt rem < wt (cur (g_heap g) f)).
Definition ready (f : part) (anc : list part) (g : glob) : Prop :=
  quiet f /\ around (f_elems f) anc /\ mgood (g_heap g) (f_elems f) (f_index f) (f_delayed f) (memo f).
Definition live (rec : @runner E O S P L) (l : list elem) : Prop :=
  forall f anc g, f_elems f = l -> ready f anc g -> exists act f' anc' g', rec f anc g = Done (act, (f', anc', g')) /\
    match act with None => anc' = anc | Some Interrupt => stopped f anc g f' anc' g' | Some _ => False end.

(** *** One element *)
Lemma leaf_live f g s src k :
  side_ok s ->
  match src with inl e => k = New e /\ els e | inr (ref, sv) => exists o, nth_error (g_heap g) ref = Some o /\ inv (restore o sv) /\ k = Old (restore o sv) end ->
  exists r f' g', process_leaf start crun save restore f g s src true true = Done (r, f', g') /\ same f f' /\
    (r = mkRet None false false \/
     exists d o', r = mkRet (Some d) true false /\ dgood (g_heap g') d /\ pend (g_heap g') d = [Old o'] /\ wk (Old o') <= wk k /\ (full f -> wk (Old o') < wk k)).
Proof.
  intros [Hml Hmr] Hsrc. unfold process_leaf. destruct (space f s true) as [[[x y] w] h] eqn:Esp.
  assert (Hfull : full f -> (H <= h /\ w <= W)%Q).
  { intros (F1 & F2 & F3). unfold space in Esp. rewrite F1 in Esp. cbn [negb andb] in Esp. injection Esp as _ <- <- <-.
    pose proof (qmax_le 0 (f_y f - f_maxy f)) as [_ K]. split; lra. }
  assert (Hb : exists ref o, match src with inl e => run! o <- lift (start e); Done (List.length (g_heap g), o)
                    | inr (ref, sv) => match nth_error (g_heap g) ref with Some o => Done (ref, restore o sv) | None => Raise PyException end
                    end = Done (ref, o) /\ inv o /\ Datatypes.S (m o) <= wk k /\ ref <= length (g_heap g)).
  { destruct src as [e|[ref sv]].
    - destruct Hsrc as [-> He]. destruct (start_ok e He) as (o & -> & K1 & K2). exists (length (g_heap g)), o. cbn [lift abind wk]. split; [reflexivity|]. split; [exact K1|]. lia.
    - destruct Hsrc as (o & E0 & K1 & ->). exists ref, (restore o sv). rewrite E0. split; [reflexivity|]. split; [exact K1|]. cbn [wk]. split; [lia|].
      pose proof (proj1 (nth_error_Some (g_heap g) ref)) as Hx. rewrite E0 in Hx. specialize (Hx ltac:(discriminate)). lia. }
  destruct Hb as (ref & o & -> & Ho & Hm & Href). cbn [abind].
  destruct (crun_ok o x y w h Ho) as (o' & ht & fin & ps & ls & -> & Hc). cbn [lift abind].
  eexists _, _, _. split; [reflexivity|]. split; [destruct (qlt 0 ht); eexists _, _, _; reflexivity|].
  destruct fin; [left; reflexivity|]. right. destruct (Hc eq_refl) as (C1 & C2 & C3). exists (DLeaf s ref (save o')), o'. split; [reflexivity|].
  cbn [g_heap]. assert (Hn : nth_error (if ref =? length (g_heap g) then g_heap g ++ [o'] else hset ref o' (g_heap g)) ref = Some o').
  { destruct (ref =? length (g_heap g)) eqn:Er; [apply Nat.eqb_eq in Er; subst ref; apply nth_snoc|]. apply Nat.eqb_neq in Er. apply nth_hset. lia. }
  split; [|split; [|split]].
  - split; [split; assumption|]. exists o'. split; [exact Hn|]. rewrite save_ok. exact C1.
  - cbn [ContentFlow.pend]. rewrite Hn, save_ok. reflexivity.
  - cbn [wk]. lia.
  - intros Hf. destruct (Hfull Hf) as [F1 F2]. specialize (C3 F1 F2). cbn [wk]. lia.
Qed.
Lemma same_quiet f f' : same f f' -> quiet f -> quiet f'.
Proof. intros (y & st & lb & ->) []. constructor; assumption. Qed.
Lemma todo_quiet f i d : quiet f -> f_sindex f <= i -> quiet (with_todo f i d).
Proof. intros [] K. constructor; assumption. Qed.

(** *** The end of the section *)
Lemma next_live heap : forall anc f n cm, quiet f -> around (f_elems f) anc ->
  mgood heap (f_elems f) (f_index f) (f_delayed f) (rev (below cm)) -> 0 < wt (todo heap (f_elems f) (f_index f) (f_delayed f) (rev (below cm))) ->
  exists f' anc', next_section n cm (f :: anc) = (SInterrupt, f' :: anc') /\ length anc' = length anc /\
    resumes heap (f_elems (root f anc)) (root f' anc') (todo heap (f_elems f) (f_index f) (f_delayed f) (rev (below cm)) ++ later anc).
Proof.
  induction anc as [|p rest IH]; intros f n cm C Ha Ht Hpos; rewrite next_section_cons, (q_column f C), (q_cols f C), (q_reset f C), Nat.eqb_refl; cbv zeta.
  - eexists _, []. split; [reflexivity|]. split; [reflexivity|]. unfold root, resumes, ContentFlow.saved. cbn [last with_section f_elems f_sindex f_sdelayed f_memory f_cols f_partial ContentFlow.later].
    rewrite app_nil_r. split; [reflexivity|]. split; [exact Ht|]. split; [reflexivity|]. split; [apply (q_cols f C)|apply (q_partial f C)].
  - destruct Ha as (Cp & Hd & (s & c & gap & Hn) & Har).
    destruct (IH p n (Some (below cm ++ [(f_index f, f_delayed f)])) Cp Har) as (f' & anc' & En & Hl & Hr).
    { cbn [below]. rewrite rev_app_distr. cbn [rev app mgood]. split; [exact Hd|]. exists s, c, gap, (f_elems f). auto. }
    { cbn [below]. rewrite rev_app_distr. cbn [rev app ContentFlow.todo]. rewrite Hd, Hn. cbn [flat_map app]. rewrite wt_app. lia. }
    rewrite En. eexists _, (f' :: anc'). split; [reflexivity|]. split; [cbn [length]; now rewrite Hl|].
    rewrite !root_cons. cbn [below] in Hr. rewrite rev_app_distr in Hr. cbn [rev app ContentFlow.todo] in Hr. rewrite Hd, Hn in Hr. cbn [flat_map app] in Hr.
    cbn [ContentFlow.later]. rewrite <- app_assoc in Hr. exact Hr.
Qed.

(** *** A box inside *)
Lemma root_y heap l p y st lb anc t : resumes heap l (root p anc) t -> resumes heap l (root (with_y p y st lb) anc) t.
Proof. destruct anc as [|a r]; [intros K; exact K|rewrite !root_cons; auto]. Qed.
Lemma child_live rec f anc g s n gap l lst :
  live rec l -> quiet f -> around (f_elems f) anc -> f_delayed f = [] -> mgood (g_heap g) (f_elems f) (f_index f) [] (memo f) ->
  nth_error (f_elems f) (f_index f) = Some (Child s n gap l) ->
  exists r f' anc' g', process_child rec f anc g s n gap l lst = Done (r, (f', anc', g')) /\
  match r with
  | inr q => q = mkRet None false false /\ same f f' /\ anc' = anc /\
             exists now, cur (g_heap g) f = now ++ flat (skipn (Datatypes.S (f_index f)) (f_elems f)) /\ 0 < wt now
  | inl Interrupt => stopped f anc g f' anc' g'
  | inl _ => False
  end.
Proof.
  intros Hrec C Ha Hd Ht Hn. unfold process_child.
  pose proof (goods_nth _ _ _ (q_elems f C) Hn) as Hg. cbn [good] in Hg. destruct Hg as (-> & Hne & Hl). fold (goods l) in Hl.
  destruct (space f s true) as [[[x y] w] h] eqn:Esp.
  set (f1 := with_y f y (f_starting f) (f_lastbottom f)).
  destruct (new_part l 1 gap lst (left_edge f) (f_colw f) y (f_maxy f) (length (g_parts g))) as [c0| |] eqn:Ec0;
    [|unfold new_part, setup in Ec0; cbn [f_cols] in Ec0; discriminate|unfold new_part, setup in Ec0; cbn [f_cols] in Ec0; discriminate].
  cbn [abind]. unfold new_part, setup in Ec0. cbn [f_cols] in Ec0. injection Ec0 as Ec0.
  assert (Hcw : (f_colw c0 == f_colw f)%Q).
  { rewrite <- Ec0. cbn [f_colw f_gapspec f_cols]. change (inject_Z (Z.of_nat 1)) with 1%Q. field. }
  assert (C1 : quiet f1) by (destruct C; constructor; assumption).
  assert (Hmem : exists i d mm f2,
    (match (if match f_memory f with [] => false | _ => f_index f =? f_sindex f end then Some (f_memory f) else f_partial f) with
     | Some mm => match rev mm with
                 | (i, d) :: up => Done (with_todo (with_section c0 i d (rev up)) i d, with_partial f1 None)
                 | [] => Raise IndexError
                 end
     | None => Done (c0, f1)
     end) = Done (with_todo (with_section c0 i d mm) i d, f2) /\
    f2 = f1 /\ mgood (g_heap g) l i d (rev mm) /\ 0 < wt (todo (g_heap g) l i d (rev mm)) /\
    cur (g_heap g) f = todo (g_heap g) l i d (rev mm) ++ flat (skipn (Datatypes.S (f_index f)) (f_elems f))).
  { assert (Hflat : 0 < wt (flat l)).
    { assert (K : Forall (fun k => 0 < wk k) (flat l)).
      { apply flat_pos. exact Hl. }
      destruct (flat l) as [|k r]; [congruence|]. inversion K; subst. rewrite wt_cons. lia. }
    unfold ContentFlow.cur. rewrite Hd. unfold memo in *. rewrite (q_partial f C). destruct (f_memory f) as [|m0 mm] eqn:Em.
    - exists 0, [], [], f1. split; [f_equal; subst c0; reflexivity|]. split; [reflexivity|]. split; [left; reflexivity|]. split; [exact Hflat|].
      rewrite todo_nil by (right; destruct (f_index f =? f_sindex f); reflexivity). rewrite (flat_skip _ _ _ Hn). reflexivity.
    - destruct (f_index f =? f_sindex f) eqn:Ei.
      + destruct (rev (m0 :: mm)) as [|[i d] up] eqn:Er.
        { apply (f_equal (@length _)) in Er. rewrite rev_length in Er. discriminate. }
        exists i, d, (rev up), f1. assert (Ewp : with_partial f1 None = f1) by (unfold f1, with_partial, with_y; cbn; rewrite (q_partial f C); reflexivity). rewrite Ewp. split; [reflexivity|]. split; [reflexivity|]. rewrite rev_involutive.
        cbn [mgood] in Ht. destruct Ht as (_ & s' & n' & gap' & l' & Hn' & Ht & Hp). rewrite Hn in Hn'. injection Hn' as <- <- <- <-. split; [exact Ht|]. split; [exact Hp|].
        cbn [ContentFlow.todo flat_map app]. rewrite Hn. reflexivity.
      + exists 0, [], [], f1. split; [f_equal; subst c0; reflexivity|]. split; [reflexivity|]. split; [left; reflexivity|]. split; [exact Hflat|].
        rewrite todo_nil by (right; reflexivity). rewrite (flat_skip _ _ _ Hn). reflexivity. }
  destruct Hmem as (i & d & mm & f2 & Emem & -> & Htt & Hpos & Hcur). rewrite Emem. cbn [abind]. clear Emem.
  set (c1 := with_todo (with_section c0 i d mm) i d) in *.
  assert (He : f_elems c1 = l) by (subst c0; reflexivity).
  assert (Hcc : cur (g_heap g) c1 = todo (g_heap g) l i d (rev mm)).
  { subst c0. unfold ContentFlow.cur, memo. cbn [c1 with_todo with_section f_index f_sindex f_memory f_delayed f_elems]. rewrite Nat.eqb_refl. reflexivity. }
  assert (Hready : ready c1 (f1 :: anc) g).
  { split; [|split].
    - subst c0. constructor; try reflexivity; cbn [c1 with_todo with_section f_elems f_sindex f_index]; exact Hl.
    - rewrite He. cbn [around]. split; [exact C1|]. split; [exact Hd|]. split; [exists s, 1, gap; exact Hn|exact Ha].
    - rewrite He. unfold memo. cbn [c1 with_todo with_section f_index f_sindex f_memory f_delayed]. rewrite Nat.eqb_refl. exact Htt. }
  destruct (Hrec c1 (f1 :: anc) g He Hready) as (act & c & anc1 & g1 & -> & Hpost). cbn [abind].
  destruct act as [[| |]|]; try contradiction.
  - destruct Hpost as (Hlen & rem & Hr & Hw & Hf). destruct anc1 as [|f3 anc2]; [discriminate|].
    eexists _, _, _, _. split; [reflexivity|]. cbv iota. rewrite !root_cons in Hr. split; [cbn [length] in Hlen; lia|].
    exists (rem ++ flat (skipn (Datatypes.S (f_index f)) (f_elems f))). rewrite Hcur, <- Hcc. split; [|split].
    + cbn [ContentFlow.later] in Hr. replace (f_elems (root f anc)) with (f_elems (root f1 anc)) by (destruct anc; [reflexivity|rewrite !root_cons; reflexivity]).
      cbn [f1 with_y f_index f_elems] in Hr. rewrite <- app_assoc. destruct (qlt _ _); apply root_y; exact Hr.
    + rewrite !wt_app. lia.
    + intros (F1 & F2 & F3). rewrite !wt_app. assert (wt rem < wt (cur (g_heap g) c1)); [|lia]. apply Hf.
      assert (Hy : y = f_y f) by (unfold space in Esp; rewrite F1 in Esp; cbn [negb andb] in Esp; congruence).
      split; [subst c0; reflexivity|]. replace (f_y c1) with y by (subst c0; reflexivity). replace (f_maxy c1) with (f_maxy f) by (subst c0; reflexivity).
      replace (f_colw c1) with (f_colw c0) by reflexivity. rewrite Hy, Hcw. split; assumption.
  - subst anc1. eexists _, _, _, _. split; [reflexivity|]. cbv iota. split; [reflexivity|]. split; [|split; [reflexivity|exists (todo (g_heap g) l i d (rev mm)); auto]].
    destruct (qlt _ _); eexists _, _, _; reflexivity.
Qed.

(** *** The elements *)
Lemma cur_next heap f i d : f_sindex f <= f_index f -> f_index f < i -> cur heap (with_todo f i d) = flat_map (pend heap) d ++ flat (skipn i (f_elems f)).
Proof. intros H1 H2. unfold ContentFlow.cur. rewrite (memo_next f i d H1 H2). reflexivity. Qed.
Lemma elements_live rec : forall fuel f anc g,
  (forall s n gap l, In (Child s n gap l) (f_elems f) -> live rec l) ->
  quiet f -> around (f_elems f) anc -> f_delayed f = [] -> mgood (g_heap g) (f_elems f) (f_index f) [] (memo f) -> length (f_elems f) - f_index f < fuel ->
  exists a f' anc' g', add_elements start crun save restore rec fuel f anc g = Done (a, (f', anc', g')) /\
  match a with
  | Goon => anc' = anc /\ quiet f' /\ f_delayed f' = []
  | Next => anc' = anc /\ quiet f' /\ f_elems f' = f_elems f /\ exists x o', f_delayed f' = [x] /\ dgood (g_heap g') x /\ pend (g_heap g') x = [Old o'] /\
              wt (Old o' :: flat (skipn (f_index f') (f_elems f'))) <= wt (cur (g_heap g) f) /\
              (full f -> wt (Old o' :: flat (skipn (f_index f') (f_elems f'))) < wt (cur (g_heap g) f))
  | Stop Interrupt => stopped f anc g f' anc' g'
  | Stop _ => False
  end.
Proof.
  induction fuel as [|fuel IH]; intros f anc g Hrec C Ha Hd Ht Hfu; [lia|]. cbn [add_elements].
  destruct (nth_error (f_elems f) (f_index f)) as [el|] eqn:Hn; [|eexists _, _, _, _; split; [reflexivity|]; cbv iota; auto].
  pose proof (q_idx f C) as Hidx. assert (Hlt : f_index f < length (f_elems f)) by (apply nth_error_Some; congruence).
  (* one step that is done *)
  assert (Hdone : forall f1 g1 now, same f f1 -> cur (g_heap g) f = now ++ flat (skipn (Datatypes.S (f_index f)) (f_elems f)) -> 0 < wt now ->
    exists a f' anc' g', add_elements start crun save restore rec fuel (with_todo f1 (Datatypes.S (f_index f1)) (f_delayed f1 ++ [])) anc g1 = Done (a, (f', anc', g')) /\
    match a with
    | Goon => anc' = anc /\ quiet f' /\ f_delayed f' = []
    | Next => anc' = anc /\ quiet f' /\ f_elems f' = f_elems f /\ exists x o', f_delayed f' = [x] /\ dgood (g_heap g') x /\ pend (g_heap g') x = [Old o'] /\
                wt (Old o' :: flat (skipn (f_index f') (f_elems f'))) <= wt (cur (g_heap g) f) /\
                (full f -> wt (Old o' :: flat (skipn (f_index f') (f_elems f'))) < wt (cur (g_heap g) f))
    | Stop Interrupt => stopped f anc g f' anc' g'
    | Stop _ => False
    end).
  { intros f1 g1 now Hs Hcur Hpos. pose proof (same_quiet _ _ Hs C) as C1. destruct Hs as (yy & st & lb & ->). rewrite app_nil_r. cbn [with_y f_index f_delayed] in *.
    rewrite Hd. set (f2 := with_todo (with_y f yy st lb) (Datatypes.S (f_index f)) []) in *.
    assert (C2 : quiet f2) by (apply todo_quiet; [exact C1|cbn [with_y f_sindex]; lia]).
    assert (Hc2 : cur (g_heap g1) f2 = flat (skipn (Datatypes.S (f_index f)) (f_elems f))) by (apply (cur_next (g_heap g1) (with_y f yy st lb) (Datatypes.S (f_index f)) []); cbn [with_y f_index f_sindex]; lia).
    assert (Ht2 : mgood (g_heap g1) (f_elems f2) (f_index f2) [] (memo f2)) by (unfold f2; rewrite memo_next; [left; reflexivity|exact Hidx|cbn [with_y f_index]; lia]).
    destruct (IH f2 anc g1 Hrec C2 Ha eq_refl Ht2) as (a & f' & anc' & g' & -> & Hc); [cbn [f2 with_todo with_y f_elems f_index]; lia|].
    exists a, f', anc', g'. split; [reflexivity|]. rewrite Hc2 in Hc. rewrite Hcur, wt_app. destruct a as [[| |]| |]; try contradiction; [| |exact Hc].
    - destruct Hc as (H1 & rem & H2 & H3 & _). rewrite Hc2 in H3. split; [exact H1|]. exists rem. rewrite Hcur, wt_app.
      split; [replace (f_elems (root f anc)) with (f_elems (root f2 anc)) by (destruct anc; [reflexivity|rewrite !root_cons; reflexivity]); exact H2|]. split; [lia|intros _; lia].
    - destruct Hc as (H1 & H2 & H3 & x & o' & H4 & H5 & H6 & H7 & _). split; [exact H1|]. split; [exact H2|]. split; [exact H3|].
      exists x, o'. split; [exact H4|]. split; [exact H5|]. split; [exact H6|]. split; [lia|intros _; lia]. }
  pose proof (goods_nth _ _ _ (q_elems f C) Hn) as Hpl.
  destruct el as [s e|s id iw ih|s id l|s n gap l]; cbn [process]; cbn [good] in Hpl; [|contradiction|contradiction|].
  - destruct Hpl as [Hs He]. destruct (leaf_live f g s (inl e) (New e) Hs (conj eq_refl He)) as (r & f1 & g1 & -> & H1 & H2). cbn [abind].
    assert (Hcur : cur (g_heap g) f = [New e] ++ flat (skipn (Datatypes.S (f_index f)) (f_elems f))) by (apply (cur_head _ _ _ _ Hd Hn); discriminate).
    destruct H2 as [->|(d & o' & -> & D1 & D2 & D3 & D4)]; cbn [r_delayed r_next].
    + apply (Hdone f1 g1 [New e] H1 Hcur). rewrite wt_cons. cbn [wk]. lia.
    + eexists _, _, _, _. split; [reflexivity|]. cbv iota. split; [reflexivity|]. pose proof (same_quiet _ _ H1 C) as C1.
      destruct H1 as (yy & st & lb & ->). cbn [with_y f_index f_delayed] in *. rewrite Hd. cbn [app]. split; [apply todo_quiet; [exact C1|cbn [with_y f_sindex]; lia]|].
      split; [reflexivity|]. exists d, o'. split; [reflexivity|]. split; [exact D1|]. split; [exact D2|]. rewrite Hcur. cbn [with_todo with_y f_index f_elems app]. rewrite !wt_cons.
      split; [lia|]. intros Hf. specialize (D4 Hf). lia.
  - destruct (child_live rec f anc g s n gap l (Datatypes.S (f_index f) =? length (f_elems f))) as (r & f1 & anc1 & g1 & -> & Hc); auto.
    { apply (Hrec s n gap). exact (nth_error_In _ _ Hn). }
    cbn [abind]. destruct r as [a|q].
    + destruct a; try contradiction. eexists _, _, _, _. split; [reflexivity|exact Hc].
    + destruct Hc as (-> & H1 & -> & now & H3 & H4). cbn [r_delayed r_next]. exact (Hdone f1 g1 now H1 H3 H4).
Qed.

(** *** The loop *)
Lemma stop_live f anc g f1 g1 x o' :
  quiet f1 -> f_elems f1 = f_elems f -> around (f_elems f) anc -> f_delayed f1 = [x] -> dgood (g_heap g1) x -> pend (g_heap g1) x = [Old o'] ->
  wt (Old o' :: flat (skipn (f_index f1) (f_elems f1))) <= wt (cur (g_heap g) f) ->
  (full f -> wt (Old o' :: flat (skipn (f_index f1) (f_elems f1))) < wt (cur (g_heap g) f)) ->
  exists f' anc', after Next f1 anc g1 = Done (Return Interrupt, (f', anc', g1)) /\ stopped f anc g f' anc' g1.
Proof.
  intros C He Ha Hd Hx Hp H1 H2. cbn [after].
  assert (Et : todo (g_heap g1) (f_elems f1) (f_index f1) (f_delayed f1) (rev (below None)) = Old o' :: flat (skipn (f_index f1) (f_elems f1))).
  { cbn [below rev ContentFlow.todo]. rewrite Hd. cbn [flat_map]. rewrite Hp. reflexivity. }
  destruct (next_live (g_heap g1) anc f1 (length (g_parts g1)) None C) as (f' & anc' & -> & Hl & Hr).
  - rewrite He. exact Ha.
  - right. exists x. auto.
  - rewrite Et. rewrite wt_cons. cbn [wk]. lia.
  - exists f', anc'. split; [reflexivity|]. split; [exact Hl|]. rewrite Et in Hr. exists (Old o' :: flat (skipn (f_index f1) (f_elems f1))).
    split; [|split; assumption]. replace (f_elems (root f anc)) with (f_elems (root f1 anc)); [exact Hr|]. destruct anc; [exact He|rewrite !root_cons; reflexivity].
Qed.
Lemma loop_live rec l fuel : (forall s n gap l', In (Child s n gap l') l -> live rec l') -> length l + 3 <= fuel -> live (loop start crun save restore rec fuel) l.
Proof.
  intros Hrec Hfu f anc g He (C & Ha & Ht). destruct fuel as [|fuel]; [lia|]. cbn [loop].
  (* after what was delayed *)
  assert (Hrest : forall f1 g1, quiet f1 -> f_elems f1 = f_elems f -> f_delayed f1 = [] -> mgood (g_heap g1) (f_elems f1) (f_index f1) [] (memo f1) ->
    wt (cur (g_heap g1) f1) <= wt (cur (g_heap g) f) -> (full f -> wt (cur (g_heap g1) f1) < wt (cur (g_heap g) f) \/ (wt (cur (g_heap g1) f1) = wt (cur (g_heap g) f) /\ full f1)) ->
    exists act f' anc' g',
      (run! (a2, (f3, anc3, g3)) <- add_elements start crun save restore rec fuel f1 anc g1;
          run! (s2, (f4, anc4, g4)) <- after a2 f3 anc3 g3;
          match s2 with
          | Retry => loop start crun save restore rec fuel f4 anc4 g4
          | Return a => Done (Some a, (f4, anc4, g4))
          | Proceed =>
              match f_delayed f4 with
              | _ :: _ => loop start crun save restore rec fuel f4 anc4 g4
              | [] =>
                  if negb (f_resetting f4) && (1 <? f_cols f4) then
                    if last_child f4 anc4 then Done (None, (f4, anc4, g4))
                    else
                      match start_resetting (f4 :: anc4) with
                      | f5 :: anc5 =>
                          if f_will f5 then let '(_, f6, g6) := reset f5 g4 in loop start crun save restore rec fuel f6 anc5 g6
                          else Done (Some Break, (f5, anc5, g4))
                      | [] => Raise PyException
                      end
                  else if f_resetting f4 then
                    let f5 := with_reset f4 (f_will f4) (f_resetting f4) (f_maxy f4) (f_difflast f4) (f_diff f4) false in
                    let '(go, f6, g6) := reset f5 g4 in
                    if go then loop start crun save restore rec fuel f6 anc4 g6 else Done (None, (f6, anc4, g6))
                  else Done (None, (f4, anc4, g4))
              end
          end) = Done (act, (f', anc', g')) /\
      match act with None => anc' = anc | Some Interrupt => stopped f anc g f' anc' g' | Some _ => False end).
  { intros f1 g1 C1 He1 Hd1 Ht1 Hw1 Hw2.
    destruct (elements_live rec fuel f1 anc g1) as (a & f3 & anc3 & g3 & -> & Hc); auto.
    { rewrite He1, He. exact Hrec. }
    { rewrite He1. exact Ha. }
    { rewrite He1, He. lia. }
    cbn [abind]. destruct a as [[| |]| |]; try contradiction.
    - cbn [after abind]. eexists _, _, _, _. split; [reflexivity|]. cbv iota. destruct Hc as (H1 & rem & H2 & H3 & H4). split; [exact H1|]. exists rem.
      split; [replace (f_elems (root f anc)) with (f_elems (root f1 anc)) by (destruct anc; [exact He1|rewrite !root_cons; reflexivity]); exact H2|].
      split; [lia|]. intros Hf. destruct (Hw2 Hf) as [K|[K1 K2]]; [lia|]. specialize (H4 K2). lia.
    - destruct Hc as (-> & C3 & He3 & x & o' & H4 & H5 & H6 & H7 & H8).
      destruct (stop_live f anc g f3 g3 x o') as (f' & anc' & -> & Hs); auto; try congruence; [lia| |].
      { intros Hf. destruct (Hw2 Hf) as [K|[K1 K2]]; [lia|]. specialize (H8 K2). lia. }
      cbn [abind]. eexists _, _, _, _. split; [reflexivity|exact Hs].
    - destruct Hc as (-> & C3 & Hd3). cbn [after abind]. rewrite Hd3, (q_reset f3 C3), (q_cols f3 C3). cbn [negb andb].
      change (1 <? 1) with false. cbv iota. eexists _, _, _, _. split; [reflexivity|]. cbv iota. reflexivity. }
  destruct fuel as [|fuel0]; [lia|]. destruct (f_delayed f) as [|x dl] eqn:Ed.
  - assert (Ea : add_delayed start crun save restore (Datatypes.S fuel0) 0 f g = Done (Goon, f, g)) by (cbn [add_delayed]; rewrite Ed; reflexivity).
    rewrite Ea. cbn [abind after]. apply Hrest; auto. 
  - assert (Hx : dl = [] /\ dgood (g_heap g) x /\ memo f = []).
    { destruct (memo f) as [|[i d] rm] eqn:Em; cbn [mgood] in Ht; [|destruct Ht; discriminate]. destruct Ht as [Ht|(x0 & Ht & Hx)]; [discriminate|]. injection Ht as <- ->. auto. }
    destruct Hx as (-> & Hx & Hm). destruct x as [s ref sv| |]; try contradiction. destruct Hx as [Hs (o & Eo & Hio)].
    destruct (leaf_live f g s (inr (ref, sv)) (Old (restore o sv)) Hs) as (r & f1 & g1 & Ep & H1 & H2); [exists o; auto|].
    assert (Hcur : cur (g_heap g) f = Old (restore o sv) :: flat (skipn (f_index f) (f_elems f))).
    { unfold ContentFlow.cur. rewrite Hm, Ed. cbn [ContentFlow.todo flat_map ContentFlow.pend]. rewrite Eo. reflexivity. }
    pose proof (same_quiet _ _ H1 C) as C1. destruct H1 as (yy & st & lb & ->).
    assert (Eu : forall q : @ret E S, replace_nth 0 (r_delayed q) [DLeaf s ref sv] = match r_delayed q with Some d => [d] | None => [] end).
    { intros q. unfold replace_nth. cbn [firstn skipn app]. apply app_nil_r. }
    destruct H2 as [->|(d & o' & -> & D1 & D2 & D3 & D4)].
    + destruct fuel0 as [|fuel1]; [lia|].
      assert (Ea : add_delayed start crun save restore (Datatypes.S (Datatypes.S fuel1)) 0 f g = Done (Goon, with_todo (with_y f yy st lb) (f_index f) [], g1)).
      { cbn [add_delayed]. rewrite Ed. cbn [nth_error process_delayed]. rewrite Ep. cbn [abind with_y f_index f_delayed]. rewrite Ed, Eu. cbn [r_delayed r_next r_flow]. reflexivity. }
      rewrite Ea. cbn [abind after].
      assert (Hm1 : memo (with_todo (with_y f yy st lb) (f_index f) []) = []) by exact Hm.
      assert (Hc1 : cur (g_heap g1) (with_todo (with_y f yy st lb) (f_index f) []) = flat (skipn (f_index f) (f_elems f))) by (unfold ContentFlow.cur; rewrite Hm1; reflexivity).
      apply Hrest; rewrite ?Hc1, ?Hcur, ?Hm1, ?wt_cons; try reflexivity; cbn [wk]; try lia.
      * apply todo_quiet; [exact C1|apply (q_idx f C)].
      * left. reflexivity.
    + assert (Ea : add_delayed start crun save restore (Datatypes.S fuel0) 0 f g = Done (Next, with_todo (with_y f yy st lb) (f_index f) [d], g1)).
      { cbn [add_delayed]. rewrite Ed. cbn [nth_error process_delayed]. rewrite Ep. cbn [abind with_y f_index f_delayed]. rewrite Ed, Eu. cbn [r_delayed r_next r_flow]. reflexivity. }
      rewrite Ea. cbn [abind].
      destruct (stop_live f anc g (with_todo (with_y f yy st lb) (f_index f) [d]) g1 d o') as (f' & anc' & -> & Hst); auto.
      { apply todo_quiet; [exact C1|apply (q_idx f C)]. }
      { rewrite Hcur, !wt_cons. cbn [with_todo with_y f_index f_elems]. lia. }
      { intros Hf. specialize (D4 Hf). rewrite Hcur, !wt_cons. cbn [with_todo with_y f_index f_elems]. lia. }
      cbn [abind]. eexists _, _, _, _. split; [reflexivity|exact Hst].
Qed.

(** The fuel that is enough. *)
Fixpoint room (el : elem) : nat := match el with Child _ _ _ l => Datatypes.S (list_sum (map room l)) | _ => 1 end.
Definition rooms (l : list elem) : nat := list_sum (map room l).
Lemma room_pos el : 1 <= room el.
Proof. destruct el; cbn [room]; lia. Qed.
Lemma rooms_cons a l : rooms (a :: l) = room a + rooms l.
Proof. reflexivity. Qed.
Lemma rooms_in el l : In el l -> room el <= rooms l.
Proof. induction l as [|a l IH]; [intros []|]. intros [->|K]; rewrite rooms_cons; [lia|specialize (IH K); lia]. Qed.
Lemma rooms_length l : length l <= rooms l.
Proof. induction l as [|a l IH]; [cbn; lia|]. rewrite rooms_cons. cbn [length]. pose proof (room_pos a). lia. Qed.
Lemma run_part_live : forall fuel l, rooms l + 4 <= fuel -> live (run_part start crun save restore fuel) l.
Proof.
  induction fuel as [|fuel IH]; intros l Hf; [lia|]. cbn [run_part]. apply loop_live.
  - intros s n gap l' Hin. apply IH. pose proof (rooms_in _ _ Hin) as K. cbn [room] in K. fold (rooms l') in K. lia.
  - pose proof (rooms_length l). lia.
Qed.

(** *** A run *)
Notation content := (@content E O S).
Variable fuel : nat.
Definition box_ok (l : list elem) : Prop := goods l /\ rooms l + 4 <= fuel.
Definition box_inv (c : content) : Prop :=
  c_finished c = false /\ c_cols c = 1 /\ box_ok (c_elems c) /\
  match c_part c with
  | None => c_heap c = []
  | Some p => exists t, resumes (c_heap c) (c_elems c) p t
  end.
Definition box_left (c : content) : nat :=
  match c_part c with None => wt (flat (c_elems c)) | Some p => wt (saved (c_heap c) p) end.
Lemma fresh_live l gap : box_ok l -> box_inv (fresh_content l 1 gap) /\ box_left (fresh_content l 1 gap) = wt (flat l).
Proof. intros Hl. split; [|reflexivity]. split; [reflexivity|]. split; [reflexivity|]. split; [exact Hl|reflexivity]. Qed.
Lemma run_live c x y w h : box_inv c -> exists c' o, run start crun save restore fuel x y w h c = Done (c', o) /\
  (c_finished c' = false -> box_inv c' /\ box_left c' <= box_left c /\ ((H <= h)%Q -> (w <= W)%Q -> box_left c' < box_left c)).
Proof.
  intros (Hf & Hcols & [Hgood Hfu] & Hp). unfold run.
  assert (Hset : exists f, match c_part c with
             | None => new_part (c_elems c) (c_cols c) (c_gap c) true x w y (y - h)%Q 0
             | Some p => setup x w y (y - h)%Q 0 p
             end = Done f /\ f_elems f = c_elems c /\ ready f [] (mkG [] [] (c_heap c) (c_tries c) : glob) /\ box_left c = wt (cur (c_heap c) f) /\
             f_starting f = true /\ f_y f = y /\ f_maxy f = (y - h)%Q /\ (f_colw f == w)%Q).
  { assert (Hw : forall gp, ((w - gp * (inject_Z (Z.of_nat 1) - 1)) / inject_Z (Z.of_nat 1) == w)%Q) by (intros gp; change (inject_Z (Z.of_nat 1)) with 1%Q; field).
    unfold box_left. destruct (c_part c) as [p|].
    - destruct Hp as (t & H1 & H2 & H3 & H4 & H5). unfold setup. rewrite H4. eexists. split; [reflexivity|]. cbn [f_elems f_starting f_y f_maxy f_colw].
      split; [exact H3|]. split; [split; [|split; [exact I|]]|].
      + constructor; cbn [f_cols f_column f_will f_resetting f_partial f_elems f_sindex f_index]; auto. rewrite H3. exact Hgood.
      + unfold memo. cbn [f_index f_sindex f_memory f_delayed f_elems g_heap]. rewrite Nat.eqb_refl. exact H2.
      + split; [unfold ContentFlow.saved, ContentFlow.cur, memo; cbn [f_elems f_index f_sindex f_memory f_delayed]; rewrite Nat.eqb_refl; reflexivity|]. do 3 (split; [reflexivity|]). apply Hw.
    - unfold new_part, setup. rewrite Hcols. cbn [f_cols]. eexists. split; [reflexivity|]. cbn [f_elems f_starting f_y f_maxy f_colw].
      split; [reflexivity|]. split; [split; [|split; [exact I|]]|].
      + constructor; cbn [f_cols f_column f_will f_resetting f_partial f_elems f_sindex f_index]; auto.
      + unfold memo. cbn. left. reflexivity.
      + split; [unfold ContentFlow.cur, memo; cbn [f_elems f_index f_sindex f_memory f_delayed]; rewrite Nat.eqb_refl; reflexivity|]. do 3 (split; [reflexivity|]). apply Hw. }
  destruct Hset as (f & -> & He & Hr & Hl & Hst & Hy & Hmy & Hcw). cbn [abind].
  destruct (run_part_live fuel (c_elems c) Hfu f [] _ He Hr) as (act & f' & anc' & g' & -> & Hact). cbn [abind].
  eexists _, _. split; [reflexivity|]. cbn [c_finished]. destruct act as [[| |]|]; try contradiction; [|discriminate]. intros _.
  destruct Hact as (Hlen & rem & Hres & Hw1 & Hw2). destruct anc'; [|discriminate]. cbn [ContentFlow.later root last] in Hres. rewrite app_nil_r in Hres.
  unfold root in Hres. cbn [last] in Hres. rewrite He in Hres. cbn [g_heap] in Hw1, Hw2. split; [|split].
  - split; [exact Hf|]. split; [exact Hcols|]. split; [split; assumption|]. cbn [c_part c_heap c_elems]. exists rem. exact Hres.
  - unfold box_left at 1. cbn [c_part c_heap]. rewrite (proj1 Hres), Hl. exact Hw1.
  - intros Hh Hww. unfold box_left at 1. cbn [c_part c_heap]. rewrite (proj1 Hres), Hl. apply Hw2. split; [exact Hst|]. rewrite Hy, Hmy. lra.
Qed.
End Ends.
