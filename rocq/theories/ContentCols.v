(** Boxes of any number of columns inside one another: what they have to show is
    shown once and in order, however often the height of the columns is tried. *)
From Coq Require Import QArith ZArith Lia List Bool.
From Verif Require Import Py Table Content.
Import ListNotations.
Open Scope list_scope.
Open Scope nat_scope.

(** What a relation between lists must be to say "in this order" or "in any
    order". *)
Record cong {T} (same : list T -> list T -> Prop) : Prop := mkCg {
  cg_refl : forall a, same a a; cg_trans : forall a b c, same a b -> same b c -> same a c;
  cg_app : forall a b c d, same a b -> same c d -> same (a ++ c) (b ++ d) }.

(** Elements [a] to [b] of a list. *)
Definition slice {A} (a b : nat) (l : list A) : list A := skipn a (firstn b l).
Lemma slice_nil {A} a (l : list A) : slice a a l = [].
Proof. unfold slice. apply skipn_all2. rewrite firstn_length. lia. Qed.
Lemma firstn_slice {A} a b (l : list A) : a <= b -> firstn b l = firstn a l ++ slice a b l.
Proof. intros H. unfold slice. rewrite <- (firstn_skipn a (firstn b l)) at 1. rewrite firstn_firstn, Nat.min_l by exact H. reflexivity. Qed.
Lemma slice_app {A} a b c (l : list A) : a <= b -> b <= c -> b <= length l -> slice a c l = slice a b l ++ slice b c l.
Proof.
  intros H1 H2 H3. unfold slice at 1. rewrite (firstn_slice b c l H2). rewrite skipn_app. unfold slice at 1. f_equal.
  rewrite firstn_length, Nat.min_l by exact H3. replace (a - b) with 0 by lia. reflexivity.
Qed.
Lemma slice_firstn {A} a b c (l : list A) : b <= c -> slice a b (firstn c l) = slice a b l.
Proof. intros H. unfold slice. rewrite firstn_firstn, Nat.min_l by exact H. reflexivity. Qed.
Lemma slice_snoc {A} (p : A) l : slice (length l) (length (l ++ [p])) (l ++ [p]) = [p].
Proof. unfold slice. rewrite firstn_all, skipn_app, skipn_all, Nat.sub_diag. reflexivity. Qed.

Section Cols.
Context {E O S P L T : Type}.
Variable start : E -> res O.
Variable crun : O -> Q -> Q -> Q -> Q -> res (O * Q * bool * list P * list L).
Variable save : O -> S.
Variable restore : O -> S -> O.
(** What there is to show, and what is shown; images. *)
Variable same : list T -> list T -> Prop.
Hypothesis same_ok : cong same.
Variable okE rwE : E -> Prop.
Variable etoks : E -> list T.
Variable inv rw : O -> Prop.
Variable kin : O -> O -> Prop.
Variable left : O -> list T.
Variable shown : list P -> list T.
Variable pic : Q -> Q -> list T.
Hypothesis kin_refl : forall o, kin o o.
Hypothesis kin_trans : forall a b c, kin a b -> kin b c -> kin a c.
Hypothesis start_ok : forall e o, okE e -> start e = Ok o -> inv o /\ same (etoks e) (left o) /\ (rwE e -> rw o).
Hypothesis run_ok : forall o x y w h o' ht fin ps ls, inv o -> crun o x y w h = Ok (o', ht, fin, ps, ls) ->
  same (left o) (shown ps ++ left o') /\ (if fin then left o' = [] else inv o') /\ kin o o' /\ (rw o -> rw o').
(** Going on from the state just saved; from an older state of an object that
    can go back; and of what it then is. *)
Hypothesis restore_ok : forall o, inv o -> inv (restore o (save o)) /\ left (restore o (save o)) = left o.
Hypothesis rewind_ok : forall o1 o, rw o1 -> kin o1 o -> inv o1 -> inv (restore o (save o1)) /\ left (restore o (save o1)) = left o1 /\ rw (restore o (save o1)).
Hypothesis restore_kin : forall o s, kin o (restore o s).
(** From how many boxes of several columns on, one inside the other, the
    elements must be able to go back: two in a first page, else one. *)
Variable thr : nat.
Hypothesis thr_ok : 1 <= thr <= 2.
Definition cnt (n : nat) : nat := if 1 <? n then 1 else 0.

Notation elem := (@elem E).
Notation delem := (@delem E S).
Notation part := (@part E S).
Notation glob := (@glob O P L).
Notation placed := (@placed O P).

Definition sm_eq a b : a = b -> same a b.
Proof. intros ->. apply (cg_refl _ same_ok). Qed.

(** ** What there is to show *)
Fixpoint etok (el : elem) : list T :=
  match el with
  | Leaf _ e => etoks e
  | Image _ _ iw ih => pic iw ih
  | Group _ _ _ => []
  | Child _ _ _ l => flat_map etok l
  end.
Definition ltoks (l : list elem) : list T := flat_map etok l.
Definition ptoks (heap : list O) (d : delem) : list T :=
  match d with
  | DLeaf _ ref sv => match nth_error heap ref with Some o => left (restore o sv) | None => [] end
  | DImage _ iw ih _ => pic iw ih
  | DGroup _ _ _ => []
  end.
Definition ptok (p : placed) : list T := match p with PlLeaf _ _ _ _ _ _ _ _ _ ps => shown ps | PlImage _ _ _ _ _ iw ih => pic iw ih end.
Definition toks (ps : list placed) : list T := flat_map ptok ps.
Lemma toks_app a b : toks (a ++ b) = toks a ++ toks b.
Proof. apply flat_map_app. Qed.

(** Elements: images keep their place, there are no groups, and what is inside
    [thr] boxes of several columns can go back to older states. *)
Fixpoint eok (m : nat) (el : elem) : Prop :=
  match el with
  | Leaf s e => okE e /\ (thr <= m -> rwE e)
  | Image s _ iw ih => s_place s = PNormal
  | Group _ _ _ => False
  | Child s cols _ l => fold_right (fun e acc => eok (cnt cols + m) e /\ acc) True l
  end.
Definition eoks (m : nat) (l : list elem) : Prop := fold_right (fun e acc => eok m e /\ acc) True l.
Lemma eoks_nth m l i el : eoks m l -> nth_error l i = Some el -> eok m el.
Proof.
  revert i. induction l as [|a l IH]; intros [|i] H Hn; try discriminate; destruct H as [Ha Hl].
  - cbn in Hn. injection Hn as <-. exact Ha.
  - exact (IH i Hl Hn).
Qed.
Definition dok (m : nat) (heap : list O) (d : delem) : Prop :=
  match d with
  | DLeaf _ ref sv => exists o o1, nth_error heap ref = Some o /\ inv o1 /\ sv = save o1 /\ (o = o1 \/ rw o1 /\ kin o1 o) /\ (thr <= m -> rw o1)
  | DImage s _ _ _ => s_place s = PNormal
  | DGroup _ _ _ => False
  end.

(** From a state: index, delayed elements, and what the boxes inside remember,
    from the outermost on. *)
Fixpoint todo (heap : list O) (l : list elem) (i : nat) (d : list delem) (rm : cmem) : list T :=
  flat_map (ptoks heap) d ++
  match rm with
  | [] => ltoks (skipn i l)
  | (i', d') :: rm' =>
      match nth_error l i with
      | Some (Child _ _ _ l') => todo heap l' i' d' rm' ++ ltoks (skipn (Datatypes.S i) l)
      | _ => ltoks (skipn i l)
      end
  end.
Fixpoint tidy (m : nat) (heap : list O) (l : list elem) (i : nat) (d : list delem) (rm : cmem) : Prop :=
  match rm with
  | [] => d = [] \/ exists x, d = [x] /\ dok m heap x
  | (i', d') :: rm' => d = [] /\ exists s n gap l', nth_error l i = Some (Child s n gap l') /\ tidy (cnt n + m) heap l' i' d' rm'
  end.
Lemma dok_any m m' heap d : thr <= m \/ m' <= m -> dok m heap d -> dok m' heap d.
Proof. intros Hm. destruct d as [s ref sv|s iw ih tr|s l tr]; cbn [dok]; auto. intros (o & o1 & H1 & H2 & H3 & H4 & H5). exists o, o1. repeat (split; [assumption|]). intros H. apply H5. lia. Qed.
Lemma tidy_any heap : forall rm m m' l i d, thr <= m \/ m' <= m -> tidy m heap l i d rm -> tidy m' heap l i d rm.
Proof.
  induction rm as [|[i' d'] rm IH]; intros m m' l i d Hm; cbn [tidy].
  - intros [->|(x & -> & Hd)]; [left; reflexivity|]. right. exists x. split; [reflexivity|]. exact (dok_any m m' heap x Hm Hd).
  - intros (-> & s & n & gap & l' & Hn & Ht). split; [reflexivity|]. exists s, n, gap, l'. split; [exact Hn|]. apply (IH (cnt n + m)); [lia|exact Ht].
Qed.
Lemma skip_nth l i el : nth_error l i = Some el -> ltoks (skipn i l) = etok el ++ ltoks (skipn (Datatypes.S i) l).
Proof.
  revert i. induction l as [|a l IH]; intros [|i] H; try discriminate.
  - cbn in H. injection H as ->. reflexivity.
  - cbn [nth_error] in H. cbn [skipn]. rewrite (IH i H). reflexivity.
Qed.
Lemma skip_none l i : nth_error l i = None -> ltoks (skipn i l) = [].
Proof. intros H. apply nth_error_None in H. rewrite skipn_all2 by exact H. reflexivity. Qed.

(** ** Objects that changed since *)
Definition hext (h h' : list O) : Prop := forall r o, nth_error h r = Some o -> exists o', nth_error h' r = Some o' /\ kin o o'.
Lemma hext_refl h : hext h h.
Proof. intros r o H. exists o. auto. Qed.
Lemma hext_trans a b c : hext a b -> hext b c -> hext a c.
Proof. intros H1 H2 r o H. destruct (H1 r o H) as (o1 & K1 & K2). destruct (H2 r o1 K1) as (o2 & K3 & K4). exists o2. split; [exact K3|]. exact (kin_trans _ _ _ K2 K4). Qed.
Lemma dok_ext m h h' d : thr <= m -> hext h h' -> dok m h d -> dok m h' d /\ ptoks h' d = ptoks h d.
Proof.
  intros Hm Hx. destruct d as [s ref sv|s iw ih tr|s l tr]; cbn [dok ptoks]; [|auto|auto].
  intros (o & o1 & H1 & H2 & -> & H6 & H7). specialize (H7 Hm) as H4. assert (H5 : kin o1 o) by (destruct H6 as [->|[_ H6]]; [apply kin_refl|exact H6]).
  destruct (Hx _ _ H1) as (o' & K1 & K2). pose proof (kin_trans _ _ _ H5 K2) as K3. split.
  - exists o', o1. repeat (split; [auto|]). auto.
  - rewrite H1, K1. destruct (rewind_ok o1 o' H4 K3 H2) as (_ & -> & _). destruct (rewind_ok o1 o H4 H5 H2) as (_ & -> & _). reflexivity.
Qed.
Lemma todo_ext h h' : hext h h' -> forall rm m l i d, thr <= m -> tidy m h l i d rm -> tidy m h' l i d rm /\ todo h' l i d rm = todo h l i d rm.
Proof.
  intros Hx. induction rm as [|[i' d'] rm IH]; intros m l i d Hm; cbn [tidy todo].
  - intros [->|(x & -> & Hd)]; [split; [left; reflexivity|reflexivity]|]. destruct (dok_ext m h h' x Hm Hx Hd) as [K1 K2].
    split; [right; exists x; auto|]. cbn [flat_map]. rewrite K2. reflexivity.
  - intros (-> & s & n & gap & l' & Hn & Ht). destruct (IH (cnt n + m) l' i' d' ltac:(lia) Ht) as [K1 K2]. split.
    + split; [reflexivity|]. exists s, n, gap, l'. split; [exact Hn|exact K1].
    + rewrite Hn, K2. reflexivity.
Qed.

(** ** Boxes that run *)
Definition memo (f : part) : cmem := if f_index f =? f_sindex f then rev (f_memory f) else [].
Definition own (heap : list O) (f : part) : list T := todo heap (f_elems f) (f_index f) (f_delayed f) (memo f).
Definition sec (heap : list O) (f : part) : list T := todo heap (f_elems f) (f_sindex f) (f_sdelayed f) (rev (f_memory f)).
Definition past (p : part) : list T := ltoks (skipn (Datatypes.S (f_index p)) (f_elems p)).
(** Where a box is to go on is in no inner box of several columns. *)
Fixpoint clear (l : list elem) (i : nat) (rm : list (nat * list delem)) : Prop :=
  match rm with
  | [] => True
  | (i', _) :: rm' => exists s n gap l', nth_error l i = Some (Child s n gap l') /\ n <= 1 /\ clear l' i' rm'
  end.
(** A box of several columns; how many of those there are, with this. *)
Definition many (f : part) : bool := 1 <? f_cols f.
Definition mode (f : part) (anc : list part) : nat := fold_right (fun p n => cnt (f_cols p) + n) 0 (f :: anc).
Definition sec_tidy (heap : list O) (f : part) : Prop := tidy thr heap (f_elems f) (f_sindex f) (f_sdelayed f) (rev (f_memory f)).

Record calm (f : part) : Prop := {
  ca_will : f_will f = false; ca_partial : f_partial f = None; ca_idx : f_sindex f <= f_index f; ca_col : f_column f < f_cols f;
  ca_reset : f_resetting f = true -> 1 < f_cols f; ca_diff : f_resetting f = false -> f_difflast f = None }.
Record lok (heap : list O) (f : part) (anc : list part) : Prop := {
  lo_calm : calm f; lo_elems : eoks (mode f anc) (f_elems f); lo_sec : many f = true -> sec_tidy heap f;
  lo_clean : Datatypes.S (mode f anc) < thr -> clear (f_elems f) (f_sindex f) (rev (f_memory f)) }.
(** The boxes around one with elements [l] and [n] columns. *)
Fixpoint around (heap : list O) (l : list elem) (n : nat) (anc : list part) : Prop :=
  match anc with
  | [] => True
  | p :: rest => lok heap p rest /\ f_delayed p = [] /\ (exists s gap, nth_error (f_elems p) (f_index p) = Some (Child s n gap l)) /\
                 around heap (f_elems p) (f_cols p) rest
  end.

Section Page.
(** What the page has to show. *)
Variable D0 : list T.
(** After the first [n] parts, [X] is what is left to do in a box around which
    are [anc]. *)
Fixpoint covers (heap : list O) (parts : list placed) (anc : list part) (X : list T) (n : nat) : Prop :=
  match anc with
  | [] => same D0 (toks (firstn n parts) ++ X)
  | p :: rest =>
      if many p then f_pindex p <= n /\ same (sec heap p) (toks (slice (f_pindex p) n parts) ++ X ++ past p) /\ covers heap parts rest (sec heap p) (f_pindex p)
      else covers heap parts rest (X ++ past p) n
  end.
Definition covers0 (heap : list O) (parts : list placed) (p : part) (rest : list part) (Y : list T) (n : nat) : Prop :=
  if many p then f_pindex p <= n /\ same (sec heap p) (toks (slice (f_pindex p) n parts) ++ Y) /\ covers heap parts rest (sec heap p) (f_pindex p)
  else covers heap parts rest Y n.
Lemma covers_cons heap parts p rest X n : covers heap parts (p :: rest) X n = covers0 heap parts p rest (X ++ past p) n.
Proof. reflexivity. Qed.

Lemma covers_mono heap parts : forall anc X n m X', n <= m -> m <= length parts -> same X (toks (slice n m parts) ++ X') ->
  covers heap parts anc X n -> covers heap parts anc X' m.
Proof.
  induction anc as [|p rest IH]; intros X n m X' H1 H2 Hs; cbn [covers].
  - intros H. apply (cg_trans _ same_ok _ _ _ H). rewrite (firstn_slice n m parts H1), toks_app, <- app_assoc.
    apply (cg_app _ same_ok); [apply (cg_refl _ same_ok)|exact Hs].
  - destruct (many p).
    + intros (K1 & K2 & K3). split; [lia|]. split; [|exact K3]. apply (cg_trans _ same_ok _ _ _ K2).
      rewrite (slice_app (f_pindex p) n m parts K1 H1) by lia. rewrite toks_app, <- app_assoc. apply (cg_app _ same_ok); [apply (cg_refl _ same_ok)|].
      rewrite app_assoc. apply (cg_app _ same_ok); [exact Hs|apply (cg_refl _ same_ok)].
    + apply IH; [exact H1|exact H2|]. rewrite app_assoc. apply (cg_app _ same_ok); [exact Hs|apply (cg_refl _ same_ok)].
Qed.
Lemma covers0_mono heap parts f anc Y n m Y' : n <= m -> m <= length parts -> same Y (toks (slice n m parts) ++ Y') ->
  covers0 heap parts f anc Y n -> covers0 heap parts f anc Y' m.
Proof.
  intros H1 H2 Hs. unfold covers0. destruct (many f).
  - intros (K1 & K2 & K3). split; [lia|]. split; [|exact K3]. apply (cg_trans _ same_ok _ _ _ K2).
    rewrite (slice_app (f_pindex f) n m parts K1 H1) by lia. rewrite toks_app, <- app_assoc. apply (cg_app _ same_ok); [apply (cg_refl _ same_ok)|exact Hs].
  - apply covers_mono; assumption.
Qed.
Lemma covers_up heap parts f anc Y n : n <= length parts -> covers0 heap parts f anc Y n -> covers heap parts anc Y n.
Proof.
  intros Hn. unfold covers0. destruct (many f); [|auto]. intros (K1 & K2 & K3). exact (covers_mono heap parts anc _ _ _ _ K1 Hn K2 K3).
Qed.
Lemma covers_parts heap parts parts' : forall anc X n, firstn n parts' = firstn n parts -> covers heap parts anc X n -> covers heap parts' anc X n.
Proof.
  induction anc as [|p rest IH]; intros X n Hf; cbn [covers]; [rewrite Hf; auto|]. destruct (many p).
  - intros (K1 & K2 & K3). split; [exact K1|]. split; [unfold slice in *; rewrite Hf; exact K2|]. apply IH; [|exact K3].
    rewrite <- (Nat.min_l (f_pindex p) n K1), <- !firstn_firstn, Hf. reflexivity.
  - apply IH. exact Hf.
Qed.
Lemma covers0_parts heap parts parts' f anc Y n : firstn n parts' = firstn n parts -> covers0 heap parts f anc Y n -> covers0 heap parts' f anc Y n.
Proof.
  intros Hf. unfold covers0. destruct (many f).
  - intros (K1 & K2 & K3). split; [exact K1|]. split; [unfold slice in *; rewrite Hf; exact K2|]. apply (covers_parts heap parts); [|exact K3].
    rewrite <- (Nat.min_l (f_pindex f) n K1), <- !firstn_firstn, Hf. reflexivity.
  - apply covers_parts. exact Hf.
Qed.
Lemma lok_ext h h' f anc : hext h h' -> lok h f anc -> lok h' f anc /\ (many f = true -> sec h' f = sec h f).
Proof.
  intros Hx [C1 C2 C3 C4]. split.
  - constructor; [exact C1|exact C2| |exact C4]. intros Hr. apply (todo_ext h h' Hx _ thr _ _ _ (le_n _) (C3 Hr)).
  - intros Hr. apply (todo_ext h h' Hx _ thr _ _ _ (le_n _) (C3 Hr)).
Qed.
Lemma around_ext h h' : hext h h' -> forall anc l n, around h l n anc -> around h' l n anc.
Proof.
  intros Hx. induction anc as [|p rest IH]; intros l n; cbn [around]; [auto|]. intros (K1 & K2 & K3 & K4).
  split; [apply (lok_ext h h' p rest Hx K1)|]. split; [exact K2|]. split; [exact K3|]. apply IH, K4.
Qed.
Lemma covers_ext h h' parts : hext h h' -> forall anc l m X n, around h l m anc -> covers h parts anc X n -> covers h' parts anc X n.
Proof.
  intros Hx. induction anc as [|p rest IH]; intros l m X n; cbn [around covers]; [auto|]. intros (K1 & K2 & K3 & K4).
  destruct (many p) eqn:Er.
  - intros (J1 & J2 & J3). destruct (lok_ext h h' p rest Hx K1) as [_ Hs]. rewrite (Hs Er). split; [exact J1|]. split; [exact J2|]. exact (IH _ _ _ _ K4 J3).
  - exact (IH _ _ _ _ K4).
Qed.
Lemma covers0_ext h h' parts f anc Y n : hext h h' -> lok h f anc -> around h (f_elems f) (f_cols f) anc -> covers0 h parts f anc Y n -> covers0 h' parts f anc Y n.
Proof.
  intros Hx Hl Ha. unfold covers0. destruct (many f) eqn:Er.
  - intros (J1 & J2 & J3). destruct (lok_ext h h' f anc Hx Hl) as [_ Hs]. rewrite (Hs Er). split; [exact J1|]. split; [exact J2|]. exact (covers_ext h h' parts Hx _ _ _ _ _ Ha J3).
  - exact (covers_ext h h' parts Hx _ _ _ _ _ Ha).
Qed.

(** A box that can go on, with [Y] left to do in it. *)
Record live (g : glob) (f : part) (anc : list part) (Y : list T) : Prop := {
  li_lok : lok (g_heap g) f anc; li_around : around (g_heap g) (f_elems f) (f_cols f) anc;
  li_cov : covers0 (g_heap g) (g_parts g) f anc Y (length (g_parts g)) }.
Definition ready (g : glob) (f : part) (anc : list part) : Prop :=
  live g f anc (own (g_heap g) f) /\ tidy (mode f anc) (g_heap g) (f_elems f) (f_index f) (f_delayed f) (memo f).

(** A page that ends: the root keeps what is left. *)
Definition root (f : part) (anc : list part) : part := last anc f.
Definition stopped (g : glob) (r0 r : part) : Prop :=
  same D0 (toks (g_parts g) ++ sec (g_heap g) r) /\ tidy (cnt (f_cols r)) (g_heap g) (f_elems r) (f_sindex r) (f_sdelayed r) (rev (f_memory r)) /\
  f_elems r = f_elems r0 /\ f_cols r = f_cols r0 /\ f_partial r = None.
(** Boxes that are left until the one that begins again. *)
Definition target (p : part) : Prop :=
  1 < f_cols p /\ f_partial p = None /\
  (f_will p = true /\ f_resetting p = false /\ f_difflast p = None \/ f_will p = false /\ f_resetting p = true /\ f_forward p = true).
Fixpoint breaks (g : glob) (anc : list part) : Prop :=
  match anc with
  | [] => False
  | p :: rest =>
      (target p /\ eoks (mode p rest) (f_elems p) /\ sec_tidy (g_heap g) p /\ around (g_heap g) (f_elems p) (f_cols p) rest /\
       f_pindex p <= length (g_parts g) /\ covers (g_heap g) (g_parts g) rest (sec (g_heap g) p) (f_pindex p)) \/
      (f_will p = false /\ f_resetting p = false /\ breaks g rest)
  end.
(** The boxes around keep their elements and columns. *)
Definition drift (p p' : part) : Prop := f_elems p' = f_elems p /\ f_cols p' = f_cols p.
Lemma drift_refl l : Forall2 drift l l.
Proof. induction l; constructor; [split; reflexivity|assumption]. Qed.
Lemma drift_trans a b c : Forall2 drift a b -> Forall2 drift b c -> Forall2 drift a c.
Proof.
  intros H. revert c. induction H as [|x y a b [H1 H2] H IH]; intros c Hc; inversion Hc as [|? z ? c' [H3 H4] Hc']; subst; constructor; [split; congruence|]. apply IH. exact Hc'.
Qed.
Lemma drift_mode f anc f' anc' : drift f f' -> Forall2 drift anc anc' -> mode f' anc' = mode f anc.
Proof.
  intros [_ H1] H. unfold mode. cbn [fold_right]. rewrite H1. f_equal. induction H as [|x y a b [_ H2] H IH]; [reflexivity|]. cbn [fold_right]. rewrite H2, IH. reflexivity.
Qed.
Lemma last_cons {A} (l : list A) a d : last (a :: l) d = last l a.
Proof. revert a d. induction l as [|b l IH]; intros; [reflexivity|]. cbn [last] in *. destruct l; [reflexivity|]. apply IH. Qed.
Lemma root_cons (f p : part) rest : root f (p :: rest) = root p rest.
Proof. apply last_cons. Qed.
Lemma drift_root f anc f' anc' : drift f f' -> Forall2 drift anc anc' -> drift (root f anc) (root f' anc').
Proof.
  intros Hf H. revert f f' Hf. induction H as [|x y a b Hx H IH]; intros f f' Hf; [exact Hf|]. rewrite !root_cons. apply IH, Hx.
Qed.

(** *** One element *)
Definition alike (f f' : part) : Prop := exists y st lb, f' = with_y f y st lb.
Lemma alike_drift f f' : alike f f' -> drift f f'.
Proof. intros (y & st & lb & ->). split; reflexivity. Qed.
Lemma alike_lok h f f' anc : alike f f' -> lok h f anc -> lok h f' anc.
Proof. intros (y & st & lb & ->) [[C1 C2 C3 C4 C5 C6] C7 C8 C9]. constructor; [constructor; assumption|exact C7|exact C8|exact C9]. Qed.
Lemma alike_live g f f' anc Y : alike f f' -> live g f anc Y -> live g f' anc Y.
Proof. intros Ha [H1 H2 H3]. constructor; [exact (alike_lok _ _ _ _ Ha H1)| |]; destruct Ha as (y & st & lb & ->); assumption. Qed.

Lemma nth_hset (n : nat) (o : O) (l : list O) : n < length l -> nth_error (hset n o l) n = Some o.
Proof.
  intros H. unfold hset. rewrite nth_error_app2; rewrite firstn_length, Nat.min_l by lia; [|lia]. rewrite Nat.sub_diag. reflexivity.
Qed.
Lemma nth_hset_ne (n m : nat) (o : O) (l : list O) : n < length l -> m <> n -> nth_error (hset n o l) m = nth_error l m.
Proof.
  intros H Hm. unfold hset. rewrite <- (firstn_skipn n l) at 3. destruct (Nat.lt_ge_cases m n) as [K|K].
  - rewrite !nth_error_app1; [reflexivity| |]; rewrite firstn_length; lia.
  - rewrite !nth_error_app2; rewrite firstn_length, Nat.min_l by lia; [|lia|lia]. destruct (m - n) as [|k] eqn:Ek; [lia|]. cbn [nth_error].
    replace (skipn n l) with (match skipn n l with [] => [] | _ :: r => skipn 0 (skipn n l) end) by (destruct (skipn n l); reflexivity).
    assert (Hs : forall (l : list O) n, skipn (Datatypes.S n) l = match skipn n l with [] => [] | _ :: r => r end).
    { clear. intros l. induction l as [|a l IH]; intros [|n]; try reflexivity. cbn [skipn] in *. apply IH. }
    rewrite Hs. destruct (skipn n l) as [|a r]; [destruct k; reflexivity|reflexivity].
Qed.
Lemma firstn_app_len {A} (a b : list A) : firstn (length a) (a ++ b) = firstn (length a) a.
Proof. rewrite firstn_app, Nat.sub_diag. cbn [firstn]. now rewrite app_nil_r. Qed.

Lemma live_step g g' f f' anc A A' R p :
  live g f anc (A ++ R) -> alike f f' -> hext (g_heap g) (g_heap g') -> g_parts g' = g_parts g ++ [p] -> same A (ptok p ++ A') -> live g' f' anc (A' ++ R).
Proof.
  intros [H1 H2 H3] Hal Hx Hp Hs. apply (alike_live g' f f' anc _ Hal). constructor.
  - apply (lok_ext _ _ _ _ Hx H1).
  - exact (around_ext _ _ Hx _ _ _ H2).
  - apply (covers0_ext _ _ _ _ _ _ _ Hx H1 H2) in H3. rewrite Hp.
    apply (covers0_parts _ _ (g_parts g ++ [p])) in H3; [|apply firstn_app_len].
    refine (covers0_mono _ _ _ _ _ _ _ _ _ _ _ H3); [rewrite app_length; lia|lia|]. rewrite slice_snoc. cbn [toks flat_map]. rewrite app_nil_r, app_assoc.
    apply (cg_app _ same_ok); [exact Hs|apply (cg_refl _ same_ok)].
Qed.

Lemma leaf_step f anc g s src A R r f' g' :
  live g f anc (A ++ R) ->
  match src with
  | inl e => A = etoks e /\ okE e /\ (thr <= mode f anc -> rwE e)
  | inr (ref, sv) => A = ptoks (g_heap g) (DLeaf s ref sv) /\ dok (mode f anc) (g_heap g) (DLeaf s ref sv)
  end ->
  process_leaf start crun save restore f g s src true true = Done (r, f', g') ->
  alike f f' /\ hext (g_heap g) (g_heap g') /\ r_flow r = false /\
  match r_delayed r with
  | None => live g' f' anc R /\ r_next r = false
  | Some d => dok (mode f anc) (g_heap g') d /\ live g' f' anc (ptoks (g_heap g') d ++ R) /\ r_next r = true
  end.
Proof.
  intros Hl Hsrc. unfold process_leaf. destruct (space f s true) as [[[x y] w] h].
  destruct (match src with inl e => _ | inr _ => _ end) as [[ref o]| |] eqn:Es; cbn [abind]; try discriminate.
  assert (Ho : inv o /\ same A (left o) /\ (thr <= mode f anc -> rw o) /\
    (ref = length (g_heap g) \/ ref < length (g_heap g) /\ exists o0, nth_error (g_heap g) ref = Some o0 /\ kin o0 o)).
  { destruct src as [e|[ref0 sv]].
    - destruct Hsrc as (-> & Ho & Hr). destruct (start e) as [o0|] eqn:E0; cbn [lift abind] in Es; try discriminate. injection Es as <- <-.
      destruct (start_ok _ _ Ho E0) as (K1 & K2 & K3). repeat split; [exact K1|exact K2|auto|left; reflexivity].
    - destruct Hsrc as (-> & o0 & o1 & H1 & H2 & -> & H4 & H6). cbn [ptoks]. rewrite H1 in Es |- *. injection Es as <- <-.
      assert (Hlt : ref0 < length (g_heap g)) by (apply nth_error_Some; rewrite H1; discriminate).
      destruct H4 as [->|[H4 H5]].
      + destruct (restore_ok _ H2) as [K1 K2]. split; [exact K1|]. split; [apply (cg_refl _ same_ok)|].
        split; [intros Hm; apply (rewind_ok _ _ (H6 Hm) (kin_refl _) H2)|].
        right. split; [exact Hlt|]. exists o1. split; [exact H1|apply restore_kin].
      + destruct (rewind_ok _ _ H4 H5 H2) as (K1 & K2 & K3). split; [exact K1|]. split; [apply (cg_refl _ same_ok)|]. split; [auto|].
        right. split; [exact Hlt|]. exists o0. split; [exact H1|apply restore_kin]. }
  destruct Ho as (Hi & HA & Hrw & Href).
  destruct (crun o x y w h) as [[[[[o' ht] fin] parts] lines]|] eqn:Ec; cbn [lift abind]; try discriminate.
  destruct (run_ok _ _ _ _ _ _ _ _ _ _ Hi Ec) as (R1 & R2 & R3 & R4).
  intros Hd. injection Hd as <- <- <-. cbn [g_heap].
  set (heap' := if ref =? length (g_heap g) then g_heap g ++ [o'] else hset ref o' (g_heap g)).
  assert (Hx : hext (g_heap g) heap' /\ nth_error heap' ref = Some o').
  { unfold heap'. destruct Href as [->|(Hlt & o0 & H1 & H2)].
    - rewrite Nat.eqb_refl. split; [|rewrite nth_error_app2, Nat.sub_diag by lia; reflexivity].
      intros q oq Hq. exists oq. split; [|apply kin_refl]. rewrite nth_error_app1; [exact Hq|]. apply nth_error_Some. rewrite Hq. discriminate.
    - destruct (Nat.eqb_spec ref (length (g_heap g))) as [K|K]; [lia|]. split; [|apply nth_hset, Hlt].
      intros q oq Hq. destruct (Nat.eq_dec q ref) as [->|Hne].
      + exists o'. split; [apply nth_hset, Hlt|]. assert (oq = o0) by congruence. subst. exact (kin_trans _ _ _ H2 R3).
      + exists oq. split; [rewrite nth_hset_ne by assumption; exact Hq|apply kin_refl]. }
  destruct Hx as [Hx Hn].
  set (f' := if qlt 0 ht then _ else _). assert (Hal : alike f f') by (unfold f'; destruct (qlt 0 ht); eexists _, _, _; reflexivity).
  split; [exact Hal|]. split; [exact Hx|]. split; [destruct fin; reflexivity|]. set (g' := mkG _ _ _ _).
  assert (Hstep : forall A', same (left o) (shown parts ++ A') -> live g' f' anc (A' ++ R)).
  { intros A' HA'. refine (live_step g g' f f' anc A A' R _ Hl Hal Hx eq_refl _). exact (cg_trans _ same_ok _ _ _ HA HA'). }
  destruct fin; cbn [r_delayed r_next].
  - split; [|reflexivity]. apply (Hstep []). rewrite R2 in R1. exact R1.
  - destruct (restore_ok _ R2) as [_ K2]. split; [|split; [|reflexivity]].
    + exists o', o'. split; [exact Hn|]. split; [exact R2|]. split; [reflexivity|]. split; [left; reflexivity|auto].
    + unfold ptoks. cbn [g' g_heap]. rewrite Hn, K2. apply Hstep, R1.
Qed.

Lemma image_step f anc g s mn sh iw ih R ok f' g' :
  live g f anc (pic iw ih ++ R) -> process_image f g s mn sh iw ih true true = (ok, f', g') ->
  alike f f' /\ if ok then live g' f' anc R /\ g_heap g' = g_heap g else g' = g.
Proof.
  intros Hl. unfold process_image. destruct (space f s true) as [[[x y] w] h].
  assert (Hgo : forall x' w' ht, (true, with_y f (y - ht)%Q false (s_mb s), with_parts g (g_parts g ++ [PlImage s x' (y - ht) w' ht iw ih])) = (ok, f', g') ->
    alike f f' /\ if ok then live g' f' anc R /\ g_heap g' = g_heap g else g' = g).
  { intros x' w' ht H. injection H as <- <- <-. split; [eexists _, _, _; reflexivity|]. split; [|reflexivity].
    refine (live_step g (with_parts g (g_parts g ++ [PlImage s x' (y - ht) w' ht iw ih])) f _ anc (pic iw ih) [] R (PlImage s x' (y - ht) w' ht iw ih) Hl _ (hext_refl _) eq_refl _); [eexists _, _, _; reflexivity|].
    cbn [ptok]. rewrite app_nil_r. apply (cg_refl _ same_ok). }
  assert (Hno : (false, with_y f (f_y f) (f_starting f) (f_lastbottom f), g) = (ok, f', g') -> alike f f' /\ if ok then live g' f' anc R /\ g_heap g' = g_heap g else g' = g).
  { intros H. injection H as <- <- <-. split; [eexists _, _, _; reflexivity|reflexivity]. }
  destruct (qlt _ h); [apply Hgo|]. destruct mn as [m|]; [|apply Hno]. destruct (Qle_bool m h); [apply Hgo|apply Hno].
Qed.

(** *** The delayed element *)
Lemma delayed_step f anc g x R r f' g' :
  live g f anc (ptoks (g_heap g) x ++ R) -> dok (mode f anc) (g_heap g) x ->
  process_delayed start crun save restore f g x = Done (r, f', g') ->
  alike f f' /\ hext (g_heap g) (g_heap g') /\ r_flow r = false /\
  match r_delayed r with
  | None => live g' f' anc R /\ r_next r = false
  | Some d => dok (mode f anc) (g_heap g') d /\ live g' f' anc (ptoks (g_heap g') d ++ R) /\ r_next r = true
  end.
Proof.
  intros Hl Hx. destruct x as [s ref sv|s iw ih tries|s l tries]; cbn [process_delayed]; [| |destruct Hx].
  - intros Hd. exact (leaf_step f anc g s (inr (ref, sv)) _ R r f' g' Hl (conj eq_refl Hx) Hd).
  - destruct (process_image f g s (s_min s) (s_shrink s) iw ih true true) as [[ok f1] g1] eqn:Ei.
    destruct (image_step f anc g s _ _ iw ih R ok f1 g1 Hl Ei) as [H1 H2]. destruct ok.
    + intros H. injection H as <- <- <-. destruct H2 as [H2 H3]. split; [exact H1|]. split; [rewrite H3; apply hext_refl|]. split; [reflexivity|]. split; [exact H2|reflexivity].
    + unfold image_ret. destruct (50 <=? tries); cbn [abind]; [discriminate|]. intros H. injection H as <- <- <-. subst g1. cbn [dok] in Hx. rewrite Hx.
      split; [exact H1|]. split; [apply hext_refl|]. split; [reflexivity|]. cbn [r_delayed r_next]. split; [exact Hx|]. split; [|reflexivity]. exact (alike_live _ _ _ _ _ H1 Hl).
Qed.
Lemma live_todo g f anc Y i d : f_sindex f <= i -> live g f anc Y -> live g (with_todo f i d) anc Y.
Proof. intros Hi [[[C1 C2 C3 C4 C5 C6] C7 C8 C9] H2 H3]. constructor; [constructor; [constructor; assumption|exact C7|exact C8|exact C9]|exact H2|exact H3]. Qed.
Lemma memo_todo (f : part) d : memo (with_todo f (f_index f) d) = memo f.
Proof. reflexivity. Qed.
Lemma memo_next (f : part) i d : f_sindex f < i -> memo (with_todo f i d) = [].
Proof. intros H. unfold memo. cbn [with_todo f_index f_sindex]. destruct (Nat.eqb_spec i (f_sindex f)); [lia|reflexivity]. Qed.

Lemma add_delayed_step fuel f anc g a f' g' :
  ready g f anc -> add_delayed start crun save restore fuel 0 f g = Done (a, f', g') ->
  drift f f' /\ hext (g_heap g) (g_heap g') /\ ready g' f' anc /\
  (a = Goon /\ f_delayed f' = [] \/ a = Next /\ memo f' = []).
Proof.
  intros [Hl Ht]. destruct fuel as [|fuel]; [discriminate|]. cbn [add_delayed]. destruct (f_delayed f) as [|x ds] eqn:Ed; cbn [nth_error].
  - intros H. injection H as <- <- <-. split; [split; reflexivity|]. split; [apply hext_refl|]. split; [split; [exact Hl|rewrite Ed; exact Ht]|]. left. auto.
  - assert (Hm : memo f = [] /\ ds = [] /\ dok (mode f anc) (g_heap g) x).
    { destruct (memo f) as [|[i' d'] rm]; cbn [tidy] in Ht; [|destruct Ht as [Ht _]; discriminate]. destruct Ht as [Ht|(x' & Ht & Hx)]; [discriminate|]. injection Ht as <- ->. auto. }
    destruct Hm as (Hm & -> & Hx).
    assert (Hown : own (g_heap g) f = ptoks (g_heap g) x ++ ltoks (skipn (f_index f) (f_elems f))).
    { unfold own. rewrite Ed, Hm. cbn [todo flat_map]. rewrite app_nil_r. reflexivity. }
    rewrite Hown in Hl. pose proof (lo_calm _ _ _ (li_lok _ _ _ _ Hl)) as C.
    destruct (process_delayed start crun save restore f g x) as [[[r f1] g1]| |] eqn:Ep; cbn [abind]; try discriminate.
    destruct (delayed_step f anc g x _ r f1 g1 Hl Hx Ep) as (H1 & H2 & H3 & H4). destruct H1 as (yy & st & lb & ->).
    cbn [with_y f_delayed f_index]. rewrite Ed. unfold replace_nth. cbn [firstn skipn app]. rewrite app_nil_r.
    destruct (r_delayed r) as [d|] eqn:Er.
    + destruct H4 as (K1 & K2 & K3). rewrite K3. intros H. injection H as <- <- <-. split; [split; reflexivity|]. split; [exact H2|].
      split; [|right; split; [reflexivity|exact Hm]]. split.
      * unfold own. change (memo (with_todo (with_y f yy st lb) (f_index f) [d])) with (memo f). rewrite Hm. cbn [with_todo f_elems f_index f_delayed todo flat_map with_y]. rewrite app_nil_r.
        apply (live_todo g1 (with_y f yy st lb)); [apply (ca_idx f C)|exact K2].
      * change (memo (with_todo (with_y f yy st lb) (f_index f) [d])) with (memo f). rewrite Hm. right. exists d. split; [reflexivity|exact K1].
    + destruct H4 as [K1 K2]. rewrite K2, H3. intros H. destruct fuel as [|fuel]; [discriminate|]. cbn [add_delayed with_todo f_delayed nth_error] in H. injection H as <- <- <-.
      split; [split; reflexivity|]. split; [exact H2|]. split; [|left; auto]. split.
      * unfold own. change (memo (with_todo (with_y f yy st lb) (f_index f) [])) with (memo f). rewrite Hm. cbn [with_todo f_elems f_index f_delayed todo flat_map with_y app].
        apply (live_todo g1 (with_y f yy st lb)); [apply (ca_idx f C)|exact K1].
      * change (memo (with_todo (with_y f yy st lb) (f_index f) [])) with (memo f). rewrite Hm. left. reflexivity.
Qed.

(** *** The end of a column *)
Definition below (cm : option (@cmem E S)) : @cmem E S := match cm with Some c => c | None => [] end.
Lemma next_section_cons n (cm : option cmem) (f : part) anc : next_section n cm (f :: anc) =
  if Datatypes.S (f_column f) =? f_cols f then
    if f_resetting f then (SBreak, with_reset f (f_will f) (f_resetting f) (f_maxy f) (f_difflast f) (f_diff f) true :: anc)
    else
      let f1 := with_section f (f_index f) (f_delayed f) (below cm) in
      match anc with
      | [] => (SInterrupt, [f1])
      | _ =>
          let '(r, anc') := next_section n (Some (below cm ++ [(f_index f, f_delayed f)])) anc in
          match r with
          | SPos x y => (match cm with None => SRetry | Some _ => r end, moved f1 x y n :: anc')
          | _ => (r, f1 :: anc')
          end
      end
  else
    let f1 := with_column f (Datatypes.S (f_column f)) in
    match cm, f_delayed f with
    | Some c, _ :: _ => (SPartial, with_partial f1 (Some c) :: anc)
    | None, _ => (SRetry, f1 :: anc)
    | Some _, [] => (SPos (left_edge f1) (f_miny f1), f1 :: anc)
    end.
Proof. reflexivity. Qed.
Definition onward (g : glob) (cm : option (@cmem E S)) (f f' : part) (anc' : list part) (Y : list T) : Prop :=
  1 <= mode f' anc' /\ live g f' anc' Y /\ f_index f' = f_index f /\ f_delayed f' = f_delayed f /\ (cm = None -> memo f = [] -> memo f' = []).
Lemma many_cols (f : part) : 1 < f_cols f -> many f = true.
Proof. intros H. apply Nat.ltb_lt, H. Qed.
Lemma mode_cons (f p : part) rest : mode f (p :: rest) = cnt (f_cols f) + mode p rest.
Proof. reflexivity. Qed.
Lemma mode_many (f : part) anc : many f = true -> 1 <= mode f anc.
Proof. unfold many, mode, cnt. intros H. cbn [fold_right]. rewrite H. lia. Qed.
Lemma column_step g anc f cm r st Y :
  lok (g_heap g) f anc -> around (g_heap g) (f_elems f) (f_cols f) anc -> (cm <> None -> f_delayed f = []) ->
  covers0 (g_heap g) (g_parts g) f anc Y (length (g_parts g)) -> Datatypes.S (f_column f) <> f_cols f ->
  (let f1 := with_column f (Datatypes.S (f_column f)) in
   match cm, f_delayed f with
   | Some c, _ :: _ => (SPartial, with_partial f1 (Some c) :: anc)
   | None, _ => (SRetry, f1 :: anc)
   | Some _, [] => (SPos (left_edge f1) (f_miny f1), f1 :: anc)
   end) = (r, st) ->
  exists f' anc', st = f' :: anc' /\ drift f f' /\ Forall2 drift anc anc' /\
  match r with
  | SInterrupt => stopped g (root f anc) (root f' anc')
  | SBreak => breaks g (f' :: anc')
  | SPartial => False
  | SRetry => cm = None /\ onward g cm f f' anc' Y
  | SPos _ _ => cm <> None /\ onward g cm f f' anc' Y
  end.
Proof.
  intros Hl Ha Hd Hc Hcol. pose proof (lo_calm _ _ _ Hl) as C. pose proof (ca_col f C) as Hlt. assert (Hco : 1 < f_cols f) by lia.
  assert (Hon : onward g cm f (with_column f (Datatypes.S (f_column f))) anc Y).
  { split; [exact (mode_many f _ (many_cols f Hco))|]. split; [|split; [reflexivity|split; [reflexivity|auto]]].
    destruct Hl as [[C1 C2 C3 C4 C5 C6] C7 C8 C9]. constructor; [constructor; [constructor; try assumption; cbn [with_column f_column f_cols]; lia|exact C7|exact C8|exact C9]|exact Ha|exact Hc]. }
  cbv zeta. destruct cm as [cm|]; [rewrite (Hd ltac:(discriminate))|]; intros H; injection H as <- <-;
    eexists _, _; (split; [reflexivity|]); (split; [split; reflexivity|]); (split; [apply drift_refl|]); (split; [congruence|exact Hon]).
Qed.
Lemma next_step g : forall anc f cm r st Y,
  lok (g_heap g) f anc -> around (g_heap g) (f_elems f) (f_cols f) anc -> (cm <> None -> f_delayed f = []) ->
  tidy (mode f anc) (g_heap g) (f_elems f) (f_index f) (f_delayed f) (rev (below cm)) ->
  Y = todo (g_heap g) (f_elems f) (f_index f) (f_delayed f) (rev (below cm)) ->
  covers0 (g_heap g) (g_parts g) f anc Y (length (g_parts g)) ->
  next_section (length (g_parts g)) cm (f :: anc) = (r, st) ->
  exists f' anc', st = f' :: anc' /\ drift f f' /\ Forall2 drift anc anc' /\
  match r with
  | SInterrupt => stopped g (root f anc) (root f' anc')
  | SBreak => breaks g (f' :: anc')
  | SPartial => False
  | SRetry => cm = None /\ onward g cm f f' anc' Y
  | SPos _ _ => cm <> None /\ onward g cm f f' anc' Y
  end.
Proof.
  induction anc as [|p rest IH]; intros f cm r st Y Hl Ha Hd Ht HY Hc; rewrite next_section_cons; pose proof (lo_calm _ _ _ Hl) as C;
    destruct (Nat.eqb_spec (Datatypes.S (f_column f)) (f_cols f)) as [Hcol|Hcol].
  2, 4: exact (column_step g _ f cm r st Y Hl Ha Hd Hc Hcol).
  - destruct (f_resetting f) eqn:Er.
    + intros H. injection H as <- <-. eexists _, _. split; [reflexivity|]. split; [split; reflexivity|]. split; [constructor|].
      pose proof (ca_reset f C Er) as Hco. pose proof (many_cols f Hco) as Hreg. unfold covers0 in Hc. rewrite Hreg in Hc. destruct Hc as (K1 & K2 & K3).
      left. destruct Hl as [_ C7 C8 _].
      split; [split; [exact Hco|split; [apply (ca_partial f C)|right; split; [apply (ca_will f C)|split; reflexivity]]]|].
      split; [exact C7|]. split; [exact (C8 Hreg)|]. split; [exact Ha|]. split; [exact K1|exact K3].
    + cbv zeta. intros H. injection H as <- <-. eexists _, []. split; [reflexivity|]. split; [split; reflexivity|]. split; [constructor|].
      unfold root, stopped, sec. cbn [last with_section f_elems f_sindex f_sdelayed f_memory f_cols f_partial].
      split; [|split; [|split; [reflexivity|split; [reflexivity|apply (ca_partial f C)]]]].
      * apply covers_up in Hc; [|lia]. cbn [covers] in Hc. rewrite firstn_all in Hc. rewrite <- HY. exact Hc.
      * unfold mode in Ht. cbn [fold_right] in Ht. rewrite Nat.add_0_r in Ht. exact Ht.
  - destruct Ha as (Lp & Hdp & (s & gap & Hn) & Har). destruct (f_resetting f) eqn:Er.
    + intros H. injection H as <- <-. eexists _, _. split; [reflexivity|]. split; [split; reflexivity|]. split; [apply drift_refl|].
      pose proof (ca_reset f C Er) as Hco. pose proof (many_cols f Hco) as Hreg. unfold covers0 in Hc. rewrite Hreg in Hc. destruct Hc as (K1 & K2 & K3).
      left. destruct Hl as [_ C7 C8 _].
      split; [split; [exact Hco|split; [apply (ca_partial f C)|right; split; [apply (ca_will f C)|split; reflexivity]]]|].
      split; [exact C7|]. split; [exact (C8 Hreg)|]. split; [split; [exact Lp|split; [exact Hdp|split; [exists s, gap; exact Hn|exact Har]]]|]. split; [exact K1|exact K3].
    + cbv zeta. destruct (next_section (length (g_parts g)) (Some (below cm ++ [(f_index f, f_delayed f)])) (p :: rest)) as [r0 st0] eqn:En.
      assert (Htp : tidy (mode p rest) (g_heap g) (f_elems p) (f_index p) (f_delayed p) (rev (below cm ++ [(f_index f, f_delayed f)]))).
      { rewrite rev_app_distr. cbn [rev app tidy]. split; [exact Hdp|]. exists s, (f_cols f), gap, (f_elems f). split; [exact Hn|]. exact Ht. }
      assert (HYp : Y ++ past p = todo (g_heap g) (f_elems p) (f_index p) (f_delayed p) (rev (below cm ++ [(f_index f, f_delayed f)]))).
      { rewrite rev_app_distr. cbn [rev app todo]. rewrite Hdp, Hn. cbn [flat_map app]. rewrite <- HY. reflexivity. }
      assert (Hcp : covers0 (g_heap g) (g_parts g) p rest (Y ++ past p) (length (g_parts g))).
      { rewrite <- covers_cons. apply (covers_up _ _ f); [lia|exact Hc]. }
      destruct (IH p (Some (below cm ++ [(f_index f, f_delayed f)])) r0 st0 (Y ++ past p) Lp Har (fun _ => Hdp) Htp HYp Hcp En) as (p' & rest' & -> & Hdr & Hdrs & Hr).
      assert (Hboth : Forall2 drift (p :: rest) (p' :: rest')) by (constructor; assumption).
      destruct r0 as [| | | |px py].
      * intros H. injection H as <- <-. eexists _, _. split; [reflexivity|]. split; [split; reflexivity|]. split; [exact Hboth|]. rewrite !root_cons. exact Hr.
      * intros H. injection H as <- <-. eexists _, _. split; [reflexivity|]. split; [split; reflexivity|]. split; [exact Hboth|]. right. split; [apply (ca_will f C)|]. split; [exact Er|exact Hr].
      * destruct Hr.
      * destruct Hr as [Hr _]. discriminate.
      * destruct Hr as (_ & Q1 & [Q2 Q3 Q4] & Q5 & Q6 & _).
        assert (Hon : onward g cm f (moved (with_section f (f_index f) (f_delayed f) (below cm)) px py (length (g_parts g))) (p' :: rest') Y).
        { set (f1 := moved (with_section f (f_index f) (f_delayed f) (below cm)) px py (length (g_parts g))).
          assert (Hmo : mode f1 (p' :: rest') = cnt (f_cols f) + mode p' rest') by reflexivity.
          assert (Hmo0 : mode f (p :: rest) = mode f1 (p' :: rest')).
          { symmetry. apply drift_mode; [split; reflexivity|exact Hboth]. }
          split; [lia|]. split; [|split; [reflexivity|split; [reflexivity|]]].
          - constructor.
            + destruct Hl as [[C1 C2 C3 C4 C5 C6] C7 C8 C9]. constructor; [constructor; try assumption; cbn; lia| | |].
              * rewrite <- Hmo0. exact C7.
              * intros Hm. change (many f1) with (1 <? f_cols f) in Hm. apply (tidy_any _ _ (mode f (p :: rest))); [|exact Ht]. rewrite Hmo0, Hmo. unfold cnt. rewrite Hm. lia.
              * intros K. lia.
            + split; [exact Q2|]. split; [rewrite Q6; exact Hdp|]. split; [|exact Q3]. exists s, gap. rewrite Q5, (proj1 Hdr). exact Hn.
            + assert (Hsec : sec (g_heap g) f1 = Y) by (symmetry; exact HY).
              assert (Hcv : covers (g_heap g) (g_parts g) (p' :: rest') Y (length (g_parts g))).
              { rewrite covers_cons. replace (past p') with (past p); [exact Q4|]. unfold past. rewrite Q5, (proj1 Hdr). reflexivity. }
              unfold covers0. destruct (many f1); [|exact Hcv]. cbn [f1 moved f_pindex]. split; [lia|]. change (mkPart _ _ _ _ _ _ _ _ _ _ _ _ _ _ _ _ _ _ _ _ _ _ _ _ _) with f1.
              rewrite Hsec. split; [rewrite slice_nil; apply (cg_refl _ same_ok)|exact Hcv].
          - intros -> _. unfold memo. cbn. destruct (_ =? _); reflexivity. }
        destruct cm as [cm|]; intros H; injection H as <- <-; eexists _, _; (split; [reflexivity|]); (split; [split; reflexivity|]); (split; [exact Hboth|]); (split; [congruence|exact Hon]).
Qed.

(** *** Beginning again *)
Definition again (g : glob) (f : part) (anc : list part) : Prop :=
  eoks (mode f anc) (f_elems f) /\ sec_tidy (g_heap g) f /\ around (g_heap g) (f_elems f) (f_cols f) anc /\
  f_pindex f <= length (g_parts g) /\ covers (g_heap g) (g_parts g) anc (sec (g_heap g) f) (f_pindex f).
Lemma ready_again g f anc Y : live g f anc Y -> many f = true -> again g f anc.
Proof.
  intros [[C1 C2 C3 C4] H2 H3] Hr. unfold covers0 in H3. rewrite Hr in *. destruct H3 as (K1 & K2 & K3).
  split; [exact C2|]. split; [exact (C3 eq_refl)|]. split; [exact H2|]. split; [exact K1|exact K3].
Qed.
Lemma reset_step f anc g f' g' : 1 < f_cols f -> f_partial f = None -> again g f anc -> reset f g = (true, f', g') ->
  drift f f' /\ g_heap g' = g_heap g /\ ready g' f' anc.
Proof.
  intros Hco Hpa (H1 & H2 & H3 & H4 & H5). unfold reset. cbv zeta.
  destruct (_ && negb (f_forward f)); [discriminate|].
  match goal with |- context [match ?e with pair _ _ => _ end] => destruct e as [[maxy dl] df] end.
  intros H. injection H as <- <-. split; [split; reflexivity|]. split; [reflexivity|].
  set (f' := with_todo _ _ _). pose proof (many_cols f Hco) as Hreg. assert (Hreg' : many f' = true) by exact Hreg.
  assert (Hown : own (g_heap g) f' = sec (g_heap g) f).
  { unfold own, sec, memo. cbn [f' with_todo with_reset moved f_elems f_index f_sindex f_delayed f_memory]. rewrite Nat.eqb_refl. reflexivity. }
  split.
  - cbn [with_parts g_heap]. rewrite Hown. constructor; cbn [with_parts g_heap g_parts].
    + constructor.
      * constructor; cbn; [reflexivity|exact Hpa|lia|lia|intros _; exact Hco|discriminate].
      * exact H1.
      * intros _. exact H2.
      * intros K. pose proof (mode_many f' anc Hreg'). lia.
    + exact H3.
    + rewrite firstn_length, Nat.min_l by exact H4. unfold covers0. rewrite Hreg'. change (f_pindex f') with (f_pindex f). change (sec (g_heap g) f') with (sec (g_heap g) f).
      split; [lia|]. split; [rewrite slice_nil; apply (cg_refl _ same_ok)|]. apply (covers_parts _ (g_parts g)); [|exact H5]. rewrite firstn_firstn, Nat.min_l by lia. reflexivity.
  - unfold memo. cbn [f' with_todo with_reset moved f_elems f_index f_sindex f_delayed f_memory with_parts g_heap]. rewrite Nat.eqb_refl. apply (tidy_any _ _ thr); [lia|exact H2].
Qed.
Lemma reset_stop (f : part) (g : glob) (f' : part) (g' : glob) : reset f g = (false, f', g') -> f' = f /\ g' = g /\ f_forward f = false /\ f_difflast f <> None.
Proof.
  unfold reset. cbv zeta. destruct (_ && negb (f_forward f)) eqn:E0.
  - intros H. injection H as <- <-. apply andb_true_iff in E0 as [E1 E2]. split; [reflexivity|]. split; [reflexivity|]. split; [apply negb_true_iff, E2|].
    destruct (f_difflast f); [discriminate|discriminate].
  - match goal with |- context [match ?e with pair _ _ => _ end] => destruct e as [[maxy dl] df] end. discriminate.
Qed.
Lemma target_go (f : part) (g : glob) go (f' : part) (g' : glob) : target f -> reset f g = (go, f', g') -> go = true.
Proof.
  intros (_ & _ & H). destruct go; [reflexivity|]. intros K. apply reset_stop in K as (_ & _ & K1 & K2). destruct H as [(_ & _ & H)|(_ & _ & H)]; congruence.
Qed.
Lemma start_step g : forall anc f, calm f -> 1 < f_cols f -> f_resetting f = false -> last_child f anc = false -> again g f anc ->
  exists f5 anc5, start_resetting (f :: anc) = f5 :: anc5 /\ drift f f5 /\ Forall2 drift anc anc5 /\ breaks g (f5 :: anc5) /\ f_resetting f5 = false.
Proof.
  assert (Hhere : forall anc f, calm f -> 1 < f_cols f -> f_resetting f = false -> again g f anc ->
    breaks g (with_reset f true (f_resetting f) (f_maxy f) (f_difflast f) (f_diff f) (f_forward f) :: anc)).
  { intros anc f C Hco Hr (H1 & H2 & H3 & H4 & H5). left. split; [|split; [exact H1|split; [exact H2|split; [exact H3|split; [exact H4|exact H5]]]]].
    split; [exact Hco|]. split; [apply (ca_partial f C)|]. left. split; [reflexivity|]. split; [exact Hr|apply (ca_diff f C Hr)]. }
  induction anc as [|p rest IH]; intros f C Hco Hr Hl Hag.
  - cbn [start_resetting]. eexists _, _. split; [reflexivity|]. split; [split; reflexivity|]. split; [constructor|]. split; [apply Hhere; assumption|exact Hr].
  - cbn [last_child] in Hl.
    change (start_resetting (f :: p :: rest)) with
      (if f_last f && (1 <? f_cols p) then f :: start_resetting (p :: rest) else with_reset f true (f_resetting f) (f_maxy f) (f_difflast f) (f_diff f) (f_forward f) :: p :: rest).
    destruct (f_last f && (1 <? f_cols p)) eqn:El.
    + apply andb_true_iff in El as [El Ep]. rewrite El in Hl. cbn [andb] in Hl. apply orb_false_iff in Hl as [Hl1 Hl2]. apply Nat.ltb_lt in Ep.
      destruct Hag as (H1 & H2 & (Lp & Hdp & Hn & Har) & H4 & H5).
      pose proof (many_cols p Ep) as Hreg. rewrite covers_cons in H5. unfold covers0 in H5. rewrite Hreg in H5. destruct H5 as (K1 & K2 & K3).
      assert (Hagp : again g p rest).
      { destruct Lp as [_ C2 C3 _]. split; [exact C2|]. split; [exact (C3 Hreg)|]. split; [exact Har|]. split; [lia|exact K3]. }
      destruct (IH p (lo_calm _ _ _ Lp) Ep Hl1 Hl2 Hagp) as (p5 & rest5 & E5 & D1 & D2 & B & R). rewrite E5. eexists _, _. split; [reflexivity|]. split; [split; reflexivity|].
      split; [constructor; assumption|]. split; [|exact Hr]. right. split; [apply (ca_will f C)|]. split; [exact Hr|exact B].
    + eexists _, _. split; [reflexivity|]. split; [split; reflexivity|]. split; [apply drift_refl|]. split; [apply Hhere; assumption|exact Hr].
Qed.

(** *** A box inside *)
Definition post (f : part) (anc : list part) (g : glob) (act : option action) (f' : part) (anc' : list part) (g' : glob) : Prop :=
  hext (g_heap g) (g_heap g') /\ drift f f' /\ Forall2 drift anc anc' /\
  match act with
  | None => around (g_heap g') (f_elems f) (f_cols f) anc' /\ covers (g_heap g') (g_parts g') anc' [] (length (g_parts g'))
  | Some Interrupt => stopped g' (root f anc) (root f' anc')
  | Some Break => breaks g' anc'
  | Some PartialNext => False
  end.
Definition fine (rec : @runner E O S P L) : Prop :=
  forall f anc g act f' anc' g', ready g f anc -> rec f anc g = Done (act, (f', anc', g')) -> post f anc g act f' anc' g'.
Lemma stopped_drift g r0 r0' r r' : stopped g r0 r -> drift r0' r0 -> alike r r' \/ r = r' -> stopped g r0' r'.
Proof.
  intros (H1 & H2 & H3 & H4 & H5) [D1 D2] [(y & st & lb & ->)| <-]; (split; [exact H1|split; [exact H2|split; [cbn [with_y f_elems]; congruence|split; [cbn [with_y f_cols]; congruence|exact H5]]]]).
Qed.
Lemma breaks_alike g f f' anc : alike f f' -> breaks g (f :: anc) -> breaks g (f' :: anc).
Proof. intros (y & st & lb & ->) [(H1 & H)|H]; [left|right]; [split; [exact H1|exact H]|exact H]. Qed.
Lemma todo_new heap l i rm : rm = [] -> todo heap l i [] rm = ltoks (skipn i l).
Proof. intros ->. reflexivity. Qed.
Lemma child_step (rec : @runner E O S P L) f anc g s n gap l lst r f' anc' g' :
  fine rec -> ready g f anc -> f_delayed f = [] -> nth_error (f_elems f) (f_index f) = Some (Child s n gap l) ->
  process_child rec f anc g s n gap l lst = Done (r, (f', anc', g')) ->
  hext (g_heap g) (g_heap g') /\ drift f f' /\ Forall2 drift anc anc' /\
  match r with
  | inr q => q = mkRet None false false /\ live g' f' anc' (past f') /\ f_delayed f' = []
  | inl Interrupt => stopped g' (root f anc) (root f' anc')
  | inl Break => breaks g' (f' :: anc')
  | inl PartialNext => False
  end.
Proof.
  intros Hrec [[Hl Ha Hc] Ht] Hd Hn. unfold process_child. destruct (space f s true) as [[[x y] w] h]. pose proof (lo_calm _ _ _ Hl) as C.
  unfold new_part, setup. cbn [f_cols f_gapspec f_elems f_last f_sindex f_sdelayed f_memory f_partial].
  destruct n as [|n0] eqn:En0; [discriminate|]. rewrite <- En0 in *. cbn [abind].
  set (c0 := mkPart l _ _ _ _ _ _ _ _ _ _ _ _ _ _ _ _ _ _ _ _ _ _ _ _).
  rewrite (ca_partial f C).
  pose (f2 := with_partial (with_y f y (f_starting f) (f_lastbottom f)) None).
  (* The box to run. *)
  set (c1 := match memo f with (i, d) :: up => with_todo (with_section c0 i d (rev up)) i d | [] => c0 end).
  assert (Hmem : exists f20, (match (if match f_memory f with [] => false | _ => f_index f =? f_sindex f end then Some (f_memory f) else None) with
     | Some m => match rev m with
                 | (i, d) :: up => Done (with_todo (with_section c0 i d (rev up)) i d, with_partial (with_y f y (f_starting f) (f_lastbottom f)) None)
                 | [] => Raise IndexError
                 end
     | None => Done (c0, with_y f y (f_starting f) (f_lastbottom f))
     end) = Done (c1, f20) /\ (f20 = f2 \/ f20 = with_y f y (f_starting f) (f_lastbottom f))).
  { unfold c1, memo. destruct (f_memory f) as [|m0 ms] eqn:Em.
    - exists (with_y f y (f_starting f) (f_lastbottom f)). split; [|auto]. cbn [rev]. destruct (f_index f =? f_sindex f); reflexivity.
    - destruct (f_index f =? f_sindex f); [|exists (with_y f y (f_starting f) (f_lastbottom f)); auto].
      exists f2. split; [|auto]. destruct (rev (m0 :: ms)) as [|[i d] up] eqn:Erv; [|reflexivity]. apply (f_equal (@length _)) in Erv. rewrite rev_length in Erv. discriminate. }
  destruct Hmem as (f20 & -> & Hf20). cbn [abind].
  assert (Hf20' : lok (g_heap g) f20 anc /\ f_delayed f20 = [] /\ f_elems f20 = f_elems f /\ f_cols f20 = f_cols f /\ f_index f20 = f_index f /\ mode f20 anc = mode f anc /\
    (forall Y, covers0 (g_heap g) (g_parts g) f anc Y (length (g_parts g)) -> covers0 (g_heap g) (g_parts g) f20 anc Y (length (g_parts g)))).
  { destruct Hl as [[C1 C2 C3 C4 C5 C6] C7 C8 C9]. destruct Hf20 as [-> | ->]; (split; [constructor; [constructor; first [assumption|reflexivity]|exact C7|exact C8|exact C9]|]; split; [exact Hd|]; split; [reflexivity|]; split; [reflexivity|]; split; [reflexivity|]; split; [reflexivity|]; intros Y HY; exact HY). }
  destruct Hf20' as (Lf & Df & Ef & Cf & If & Rf & Kf).
  assert (Hcols : f_cols c1 = n) by (unfold c1; destruct (memo f) as [|[i d] up]; reflexivity).
  assert (Hel : f_elems c1 = l) by (unfold c1; destruct (memo f) as [|[i d] up]; reflexivity).
  assert (Hpi : f_pindex c1 = length (g_parts g)) by (unfold c1; destruct (memo f) as [|[i d] up]; reflexivity).
  assert (Hsec : own (g_heap g) c1 = sec (g_heap g) c1 /\ own (g_heap g) f = sec (g_heap g) c1 ++ past f /\
     tidy (cnt n + mode f anc) (g_heap g) l (f_sindex c1) (f_sdelayed c1) (rev (f_memory c1)) /\
     tidy (cnt n + mode f anc) (g_heap g) l (f_index c1) (f_delayed c1) (memo c1)).
  { unfold c1, own at 2, sec. rewrite Hd. rewrite Hd in Ht. destruct (memo f) as [|[i d] up] eqn:Em.
    - split; [reflexivity|]. split; [|split; left; reflexivity]. cbn [todo flat_map app c0 f_elems f_sindex f_sdelayed f_memory rev]. rewrite (skip_nth _ _ _ Hn). reflexivity.
    - cbn [tidy] in Ht. destruct Ht as (_ & s' & n' & gap' & l' & Hn' & Ht). rewrite Hn in Hn'. injection Hn' as <- <- <- <-.
      unfold own, memo. cbn [with_todo with_section f_elems f_index f_sindex f_delayed f_sdelayed f_memory c0]. rewrite Nat.eqb_refl, rev_involutive.
      split; [reflexivity|]. split; [|split; exact Ht]. cbn [todo flat_map app]. rewrite Hn. reflexivity. }
  destruct Hsec as (S1 & S2 & S3 & S4).
  assert (Hreg : mode c1 (f20 :: anc) = cnt n + mode f anc) by (rewrite mode_cons, Rf, Hcols; reflexivity).
  assert (Hclear : Datatypes.S (mode f anc) < thr -> clear l (f_sindex c1) (rev (f_memory c1)) /\ (1 < n -> f_memory c1 = [] /\ f_sdelayed c1 = [])).
  { intros K. pose proof (lo_clean _ _ _ Hl K) as Hm. unfold c1, memo. destruct (Nat.eqb_spec (f_index f) (f_sindex f)) as [Ei|_]; [|split; [exact I|auto]].
    rewrite <- Ei in Hm. destruct (rev (f_memory f)) as [|[i d] up]; [split; [exact I|auto]|]. cbn [clear] in Hm. destruct Hm as (s' & n' & gap' & l' & Hn' & Hn1 & Hm).
    rewrite Hn in Hn'. injection Hn' as <- <- <- <-. cbn [with_todo with_section f_sindex f_memory]. rewrite rev_involutive. split; [exact Hm|lia]. }
  assert (Har : around (g_heap g) (f_elems c1) (f_cols c1) (f20 :: anc)).
  { split; [exact Lf|]. split; [exact Df|]. split; [exists s, gap; rewrite Ef, If, Hel, Hcols; exact Hn|]. rewrite Ef, Cf. exact Ha. }
  assert (Hcov : covers (g_heap g) (g_parts g) (f20 :: anc) (sec (g_heap g) c1) (length (g_parts g))).
  { rewrite covers_cons. replace (past f20) with (past f) by (unfold past; rewrite Ef, If; reflexivity). apply Kf. rewrite <- S2. exact Hc. }
  assert (Hready : ready g c1 (f20 :: anc)).
  { split; [|rewrite Hreg, Hel; exact S4]. constructor; [|exact Har|].
    - constructor.
      + unfold c1. destruct (memo f) as [|[i d] up]; constructor; cbn; try reflexivity; try lia; try discriminate.
      + rewrite Hreg, Hel. pose proof (eoks_nth _ _ _ _ (lo_elems _ _ _ Hl) Hn) as K. exact K.
      + intros Hr. unfold sec_tidy. rewrite Hel. unfold many in Hr. rewrite Hcols in Hr.
        destruct (Nat.le_gt_cases thr (Datatypes.S (mode f anc))) as [K1|K1].
        * apply (tidy_any _ _ (cnt n + mode f anc)); [|exact S3]. unfold cnt. rewrite Hr. left. exact K1.
        * apply Nat.ltb_lt in Hr. destruct (proj2 (Hclear K1) Hr) as [-> ->]. left. reflexivity.
      + rewrite Hreg, Hel. intros K. apply Hclear. lia.
    - rewrite S1. unfold covers0. destruct (many c1); [|exact Hcov]. rewrite Hpi. split; [lia|]. split; [rewrite slice_nil; apply (cg_refl _ same_ok)|exact Hcov]. }
  destruct (rec c1 (f20 :: anc) g) as [[act [[c anc1] g1]]| |] eqn:Er; cbn [abind]; try discriminate.
  destruct (Hrec _ _ _ _ _ _ _ Hready Er) as (P1 & P2 & P3 & P4).
  inversion P3 as [|? f3 ? anc2 [D1 D2] D3]; subst anc1 x0 l0.
  set (f4 := match act with Some PartialNext => f3 | _ => _ end).
  assert (Hal : alike f3 f4 \/ f3 = f4).
  { unfold f4. destruct act as [[| |]|]; try (right; reflexivity); destruct (qlt _ _); left; eexists _, _, _; reflexivity. }
  assert (D4 : drift f f4).
  { destruct Hal as [Ha4| <-]; [apply alike_drift in Ha4 as [A1 A2]; split; congruence|split; congruence]. }
  destruct act as [[| |]|]; intros H.
  - injection H as <- <- <- <-. split; [exact P1|]. split; [exact D4|]. split; [exact D3|]. rewrite !root_cons in P4.
    clear - P4 Hal D3 D4 D1 D2 Ef Cf. destruct D3 as [|p p' anc anc2 Dp D3].
    + cbn in P4 |- *. refine (stopped_drift _ _ _ _ _ P4 _ Hal). split; assumption.
    + rewrite !root_cons in P4 |- *. refine (stopped_drift _ _ _ _ _ P4 _ (or_intror eq_refl)). split; reflexivity.
  - injection H as <- <- <- <-. split; [exact P1|]. split; [exact D4|]. split; [exact D3|]. destruct Hal as [Hal| <-]; [exact (breaks_alike _ _ _ _ Hal P4)|exact P4].
  - destruct P4.
  - injection H as <- <- <- <-. split; [exact P1|]. split; [exact D4|]. split; [exact D3|]. split; [reflexivity|].
    destruct P4 as [(L3 & Dl3 & _ & A3) P5]. rewrite covers_cons in P5. cbn [app] in P5.
    assert (Hlive : live g1 f3 anc2 (past f3)) by (constructor; assumption).
    assert (Hal' : alike f3 (with_y f4 (f_y f4) false (f_lastbottom f4))) by (destruct Hal as [(y' & st & lb & ->)| <-]; eexists _, _, _; reflexivity).
    split; [|destruct Hal' as (y' & st & lb & ->); exact Dl3].
    replace (past (with_y f4 (f_y f4) false (f_lastbottom f4))) with (past f3) by (destruct Hal' as (y' & st & lb & ->); reflexivity).
    exact (alike_live _ _ _ _ _ Hal' Hlive).
Qed.

(** *** The elements *)
Definition ansok (f0 : part) (anc0 : list part) (a : answer) (g : glob) (f : part) (anc : list part) : Prop :=
  match a with
  | Goon => ready g f anc
  | Next => ready g f anc /\ memo f = []
  | Stop Interrupt => stopped g (root f0 anc0) (root f anc)
  | Stop Break => breaks g (f :: anc)
  | Stop PartialNext => False
  end.
Lemma ansok_drift f0 anc0 f1 anc1 a g f anc : drift f0 f1 -> Forall2 drift anc0 anc1 -> ansok f1 anc1 a g f anc -> ansok f0 anc0 a g f anc.
Proof.
  intros H1 H2. destruct a as [[| |]| |]; cbn [ansok]; auto. intros H. refine (stopped_drift _ _ _ _ _ H _ (or_intror eq_refl)). apply drift_root; assumption.
Qed.
Lemma ready_next g f anc d : live g f anc (flat_map (ptoks (g_heap g)) d ++ past f) -> f_delayed f = [] -> (d = [] \/ exists x, d = [x] /\ dok (mode f anc) (g_heap g) x) ->
  ready g (with_todo f (Datatypes.S (f_index f)) d) anc /\ memo (with_todo f (Datatypes.S (f_index f)) d) = [].
Proof.
  intros Hl Hd Hx. pose proof (ca_idx f (lo_calm _ _ _ (li_lok _ _ _ _ Hl))) as Hi.
  assert (Hm : memo (with_todo f (Datatypes.S (f_index f)) d) = []) by (apply memo_next; lia).
  split; [|exact Hm]. split.
  - unfold own. rewrite Hm. apply live_todo; [lia|exact Hl].
  - rewrite Hm. exact Hx.
Qed.
Lemma ready_nomemo g f anc el : ready g f anc -> nth_error (f_elems f) (f_index f) = Some el -> f_delayed f = [] ->
  match el with Child _ _ _ _ => True | _ => live g f anc (etok el ++ past f) end.
Proof.
  intros [Hl Ht] Hn Hd. destruct (memo f) as [|[i d] rm] eqn:Em.
  - unfold own in Hl. rewrite Em, Hd in Hl. cbn [todo flat_map app] in Hl. rewrite (skip_nth _ _ _ Hn) in Hl. destruct el; [exact Hl|exact Hl|exact Hl|exact I].
  - cbn [tidy] in Ht. destruct Ht as (_ & s' & n' & gap' & l' & Hn' & _). rewrite Hn in Hn'. injection Hn' as ->. exact I.
Qed.
Lemma tries_live g g' f anc Y : g_parts g' = g_parts g -> g_heap g' = g_heap g -> live g f anc Y -> live g' f anc Y.
Proof. intros E1 E2 [H1 H2 H3]. constructor; rewrite ?E1, ?E2; assumption. Qed.

Lemma process_step (rec : @runner E O S P L) f anc g el lst r f' anc' g' :
  fine rec -> ready g f anc -> f_delayed f = [] -> nth_error (f_elems f) (f_index f) = Some el ->
  process start crun save restore rec f anc g el lst = Done (r, (f', anc', g')) ->
  hext (g_heap g) (g_heap g') /\ drift f f' /\ Forall2 drift anc anc' /\
  match r with
  | inl a => ansok f anc (Stop a) g' f' anc'
  | inr q => f_delayed f' = [] /\
      match r_delayed q with
      | None => r_next q = false /\ live g' f' anc' (past f')
      | Some x => r_next q = true /\ dok (mode f' anc') (g_heap g') x /\ live g' f' anc' (ptoks (g_heap g') x ++ past f')
      end
  end.
Proof.
  intros Hrec Hr Hd Hn. pose proof (ready_nomemo _ _ _ _ Hr Hn Hd) as Hel. pose proof (lo_elems _ _ _ (li_lok _ _ _ _ (proj1 Hr))) as Hok.
  pose proof (eoks_nth _ _ _ _ Hok Hn) as He. destruct el as [s e|s id iw ih|s id gl|s n gap l]; cbn [process].
  - destruct (process_leaf start crun save restore f g s (inl e) true true) as [[[q f1] g1]| |] eqn:Ep; cbn [abind]; try discriminate.
    intros H. injection H as <- <- <- <-. cbn [eok] in He.
    destruct (leaf_step f anc g s (inl e) (etoks e) (past f) q f1 g1 Hel) as (H1 & H2 & H3 & H4); [|exact Ep|].
    { split; [reflexivity|]. destruct He as [K1 K2]. split; [exact K1|exact K2]. }
    split; [exact H2|]. split; [exact (alike_drift _ _ H1)|]. split; [apply drift_refl|]. destruct H1 as (y & st & lb & ->). split; [exact Hd|].
    destruct (r_delayed q) as [x|]; [destruct H4 as (K1 & K2 & K3); split; [exact K3|]; split; [exact K1|exact K2]|destruct H4 as [K1 K2]; split; [exact K2|exact K1]].
  - destruct (process_image f g s (s_min s) (s_shrink s) iw ih true true) as [[ok f1] g1] eqn:Ei.
    destruct (image_step f anc g s _ _ iw ih (past f) ok f1 g1 Hel Ei) as [H1 H2]. destruct ok.
    + intros H. injection H as <- <- <- <-. destruct H2 as [H2 H3]. split; [rewrite H3; apply hext_refl|]. split; [exact (alike_drift _ _ H1)|]. split; [apply drift_refl|].
      destruct H1 as (y & st & lb & ->). split; [exact Hd|]. split; [reflexivity|exact H2].
    + unfold image_ret. destruct (50 <=? g_tries g id); cbn [abind]; [discriminate|]. cbn [eok] in He. rewrite He. intros H. injection H as <- <- <- <-. subst g1.
      split; [apply hext_refl|]. split; [exact (alike_drift _ _ H1)|]. split; [apply drift_refl|]. pose proof (alike_live _ _ _ _ _ H1 Hel) as Hl'. destruct H1 as (y & st & lb & ->).
      split; [exact Hd|]. split; [reflexivity|]. split; [exact He|]. apply (tries_live g); [reflexivity|reflexivity|exact Hl'].
  - destruct He.
  - intros H. destruct (child_step rec f anc g s n gap l lst r f' anc' g' Hrec Hr Hd Hn H) as (H1 & H2 & H3 & H4). split; [exact H1|]. split; [exact H2|]. split; [exact H3|].
    destruct r as [a|q]; [destruct a; exact H4|]. destruct H4 as (-> & K1 & K2). split; [exact K2|]. split; [reflexivity|exact K1].
Qed.

Lemma elements_step (rec : @runner E O S P L) : fine rec -> forall fuel f anc g a f' anc' g',
  ready g f anc -> f_delayed f = [] ->
  add_elements start crun save restore rec fuel f anc g = Done (a, (f', anc', g')) ->
  hext (g_heap g) (g_heap g') /\ drift f f' /\ Forall2 drift anc anc' /\ ansok f anc a g' f' anc' /\ (a = Goon -> f_delayed f' = [] /\ own (g_heap g') f' = []).
Proof.
  intros Hrec. induction fuel as [|fuel IH]; intros f anc g a f' anc' g' Hr Hd; [discriminate|]. cbn [add_elements].
  destruct (nth_error (f_elems f) (f_index f)) as [el|] eqn:En.
  - destruct (process start crun save restore rec f anc g el _) as [[r [[f1 anc1] g1]]| |] eqn:Ep; cbn [abind]; try discriminate.
    destruct (process_step rec f anc g el _ r f1 anc1 g1 Hrec Hr Hd En Ep) as (H1 & H2 & H3 & H4). destruct r as [b|q].
    + intros H. injection H as <- <- <- <-. split; [exact H1|]. split; [exact H2|]. split; [exact H3|]. split; [exact H4|discriminate].
    + cbv zeta. destruct H4 as [Hd1 H4]. rewrite Hd1. destruct (r_delayed q) as [x|] eqn:Eq.
      * destruct H4 as (K1 & K2 & K3). rewrite K1. cbn [app]. intros H. injection H as <- <- <- <-.
        assert (K3' : live g1 f1 anc1 (flat_map (ptoks (g_heap g1)) [x] ++ past f1)) by (cbn [flat_map]; rewrite app_nil_r; exact K3).
        destruct (ready_next g1 f1 anc1 [x] K3' Hd1 (or_intror (ex_intro _ x (conj eq_refl K2)))) as [R1 R2].
        split; [exact H1|]. split; [exact H2|]. split; [exact H3|]. split; [split; [exact R1|exact R2]|discriminate].
      * destruct H4 as [K1 K2]. rewrite K1. cbn [app]. intros H.
        destruct (ready_next g1 f1 anc1 [] K2 Hd1 (or_introl eq_refl)) as [R1 R2].
        destruct (IH _ _ _ _ _ _ _ R1 eq_refl H) as (J1 & J2 & J3 & J4 & J5).
        split; [exact (hext_trans _ _ _ H1 J1)|]. assert (D1 : drift f (with_todo f1 (Datatypes.S (f_index f1)) [])) by exact H2.
        split; [destruct D1, J2; split; congruence|]. split; [exact (drift_trans _ _ _ H3 J3)|]. split; [exact (ansok_drift _ _ _ _ _ _ _ _ D1 H3 J4)|exact J5].
  - intros H. injection H as <- <- <- <-. split; [apply hext_refl|]. split; [split; reflexivity|]. split; [apply drift_refl|]. split; [exact Hr|]. intros _. split; [exact Hd|].
    unfold own. destruct Hr as [_ Ht]. rewrite Hd in *. destruct (memo f) as [|[i d] rm]; [cbn [todo flat_map app]; apply skip_none, En|].
    cbn [tidy] in Ht. destruct Ht as (_ & s' & n' & gap' & l' & Hn' & _). rewrite En in Hn'. discriminate.
Qed.

(** *** What follows *)
Lemma after_step a f0 anc0 f anc g s f' anc' g' :
  drift f0 f -> Forall2 drift anc0 anc -> ansok f0 anc0 a g f anc -> after a f anc g = Done (s, (f', anc', g')) ->
  hext (g_heap g) (g_heap g') /\ drift f f' /\ Forall2 drift anc anc' /\
  match s with
  | Proceed => a = Goon /\ f' = f /\ anc' = anc /\ g' = g
  | Retry => ready g' f' anc'
  | Return Interrupt => stopped g' (root f0 anc0) (root f' anc')
  | Return Break => breaks g' anc'
  | Return PartialNext => False
  end.
Proof.
  intros D1 D2 Ha.
  assert (Hb : forall (fb : part) ancb s f' g', breaks g (fb :: ancb) -> if_resetting fb g = (s, f', g') ->
    g_heap g' = g_heap g /\ drift fb f' /\ match s with Retry => ready g' f' ancb | Return Break => breaks g' ancb | _ => False end).
  { intros fb ancb s0 f1' g1' Hb. unfold if_resetting. destruct Hb as [(Htg & Hag)|(H1 & H2 & H3)].
    - assert (Hor : f_will fb || f_resetting fb = true) by (destruct Htg as (_ & _ & [(K & _)|(_ & K & _)]); rewrite K; [reflexivity|apply orb_true_r]).
      rewrite Hor. destruct (reset fb g) as [[go f1] g1] eqn:Er. pose proof (target_go _ _ _ _ _ Htg Er); subst go. intros H. injection H as <- <- <-.
      destruct Htg as (T1 & T2 & _). destruct (reset_step fb ancb g f1 g1 T1 T2 Hag Er) as (K1 & K2 & K3). split; [exact K2|]. split; [exact K1|exact K3].
    - rewrite H1, H2. cbn [orb]. intros H. injection H as <- <- <-. split; [reflexivity|]. split; [split; reflexivity|exact H3]. }
  destruct a as [b| |]; cbn [after].
  - destruct b.
    + intros H. injection H as <- <- <- <-. split; [apply hext_refl|]. split; [split; reflexivity|]. split; [apply drift_refl|exact Ha].
    + destruct (if_resetting f g) as [[s1 f1] g1] eqn:Ei. intros H. injection H as <- <- <- <-. destruct (Hb _ _ _ _ _ Ha Ei) as (K1 & K2 & K3).
      split; [rewrite K1; apply hext_refl|]. split; [exact K2|]. split; [apply drift_refl|]. destruct s1 as [[| |]| |]; try exact K3; destruct K3.
    + destruct Ha.
  - destruct Ha as [[Hl Ht] Hm]. destruct Hl as [L1 L2 L3].
    destruct (next_section (length (g_parts g)) None (f :: anc)) as [r st] eqn:En.
    assert (HY : own (g_heap g) f = todo (g_heap g) (f_elems f) (f_index f) (f_delayed f) (rev (below None))) by (unfold own; rewrite Hm; reflexivity).
    rewrite Hm in Ht. destruct (next_step g anc f None r st _ L1 L2 ltac:(congruence) Ht HY L3 En) as (f1 & anc1 & -> & D3 & D4 & Hr).
    destruct r as [| | | |px py].
    + intros H. injection H as <- <- <- <-. split; [apply hext_refl|]. split; [exact D3|]. split; [exact D4|]. refine (stopped_drift _ _ _ _ _ Hr _ (or_intror eq_refl)). apply drift_root; assumption.
    + destruct (if_resetting f1 g) as [[s1 f2] g1] eqn:Ei. intros H. injection H as <- <- <- <-. destruct (Hb _ _ _ _ _ Hr Ei) as (K1 & K2 & K3).
      split; [rewrite K1; apply hext_refl|]. split; [destruct D3, K2; split; congruence|]. split; [exact D4|]. destruct s1 as [[| |]| |]; try exact K3; destruct K3.
    + destruct Hr.
    + intros H. injection H as <- <- <- <-. split; [apply hext_refl|]. split; [exact D3|]. split; [exact D4|]. destruct Hr as (_ & Q1 & Q2 & Q3 & Q4 & Q5).
      specialize (Q5 eq_refl Hm). split.
      * unfold own. rewrite Q5. destruct D3 as [E1 E2]. rewrite E1, Q3, Q4. unfold own in Q2. rewrite Hm in Q2. exact Q2.
      * rewrite Q5, Q4, Q3. rewrite (drift_mode f anc f1 anc1 D3 D4), (proj1 D3). exact Ht.
    + destruct Hr as [K _]. congruence.
  - intros H. injection H as <- <- <- <-. split; [apply hext_refl|]. split; [split; reflexivity|]. split; [apply drift_refl|]. auto.
Qed.

(** *** A box *)
Lemma ready_post g f anc : ready g f anc -> own (g_heap g) f = [] -> post f anc g None f anc g.
Proof.
  intros [[H1 H2 H3] _] Ho. rewrite Ho in H3. split; [apply hext_refl|]. split; [split; reflexivity|]. split; [apply drift_refl|]. split; [exact H2|]. apply (covers_up _ _ f); [lia|exact H3].
Qed.
Lemma post_after f anc g act f1 anc1 g1 f' anc' g' : hext (g_heap g) (g_heap g1) -> drift f f1 -> Forall2 drift anc anc1 ->
  post f1 anc1 g1 act f' anc' g' -> post f anc g act f' anc' g'.
Proof.
  intros H1 H2 H3 (K1 & K2 & K3 & K4). split; [exact (hext_trans _ _ _ H1 K1)|]. split; [destruct H2, K2; split; congruence|]. split; [exact (drift_trans _ _ _ H3 K3)|].
  destruct act as [[| |]|]; [|exact K4|exact K4|].
  - refine (stopped_drift _ _ _ _ _ K4 _ (or_intror eq_refl)). apply drift_root; assumption.
  - destruct K4 as [K4 K5]. destruct H2 as [E1 E2]. rewrite <- E1, <- E2. split; assumption.
Qed.
Lemma loop_step (rec : @runner E O S P L) : fine rec -> forall fuel, fine (loop start crun save restore rec fuel).
Proof.
  intros Hrec. induction fuel as [|fuel IH]; intros f anc g act f' anc' g' Hr; [discriminate|]. cbn [loop].
  destruct (add_delayed start crun save restore fuel 0 f g) as [[[a1 f1] g1]| |] eqn:E1; cbn [abind]; try discriminate.
  destruct (add_delayed_step fuel f anc g a1 f1 g1 Hr E1) as (A1 & A2 & A3 & A4).
  destruct (after a1 f1 anc g1) as [[s1 [[f2 anc2] g2]]| |] eqn:E2; cbn [abind]; try discriminate.
  assert (Hok : ansok f anc a1 g1 f1 anc) by (destruct A4 as [[-> _]|[-> Hm]]; [exact A3|split; assumption]).
  destruct (after_step a1 f anc f1 anc g1 s1 f2 anc2 g2 A1 (drift_refl _) Hok E2) as (B1 & B2 & B3 & B4).
  assert (C1 : hext (g_heap g) (g_heap g2)) by exact (hext_trans _ _ _ A2 B1).
  assert (C2 : drift f f2) by (destruct A1, B2; split; congruence).
  destruct s1 as [b| |].
  - intros H. injection H as <- <- <- <-. split; [exact C1|]. split; [exact C2|]. split; [exact B3|]. destruct b; exact B4.
  - intros H. exact (post_after _ _ _ _ _ _ _ _ _ _ C1 C2 B3 (IH _ _ _ _ _ _ _ B4 H)).
  - destruct B4 as (-> & -> & -> & ->). destruct A4 as [[_ Hd1]|[A4 _]]; [|discriminate].
    destruct (add_elements start crun save restore rec fuel f1 anc g1) as [[a2 [[f3 anc3] g3]]| |] eqn:E3; cbn [abind]; try discriminate.
    destruct (elements_step rec Hrec fuel f1 anc g1 a2 f3 anc3 g3 A3 Hd1 E3) as (F1 & F2 & F3 & F4 & F5).
    destruct (after a2 f3 anc3 g3) as [[s2 [[f4 anc4] g4]]| |] eqn:E4; cbn [abind]; try discriminate.
    destruct (after_step a2 f1 anc f3 anc3 g3 s2 f4 anc4 g4 F2 F3 F4 E4) as (G1 & G2 & G3 & G4).
    assert (J1 : hext (g_heap g) (g_heap g4)) by exact (hext_trans _ _ _ C1 (hext_trans _ _ _ F1 G1)).
    assert (J2 : drift f f4) by (destruct A1, F2, G2; split; congruence).
    assert (J3 : Forall2 drift anc anc4) by exact (drift_trans _ _ _ F3 G3).
    destruct s2 as [b| |].
    + intros H. injection H as <- <- <- <-. split; [exact J1|]. split; [exact J2|]. split; [exact J3|]. destruct b; [|exact G4|exact G4].
      refine (stopped_drift _ _ _ _ _ G4 _ (or_intror eq_refl)). apply drift_root; [exact A1|apply drift_refl].
    + intros H. exact (post_after _ _ _ _ _ _ _ _ _ _ J1 J2 J3 (IH _ _ _ _ _ _ _ G4 H)).
    + destruct G4 as (-> & -> & -> & ->). destruct (F5 eq_refl) as [Hd3 Ho3]. cbn [ansok] in F4. rewrite Hd3.
      pose proof (lo_calm _ _ _ (li_lok _ _ _ _ (proj1 F4))) as C.
      destruct (f_resetting f3) eqn:Er; cbn [negb andb].
      * pose proof (ca_reset f3 C Er) as Hco. pose proof (ready_again _ _ _ _ (proj1 F4) (many_cols f3 Hco)) as Hag.
        set (f5 := with_reset f3 _ _ _ _ _ _). destruct (reset f5 g3) as [[go f6] g6] eqn:E6. destruct go.
        -- intros H. destruct (reset_step f5 anc3 g3 f6 g6 Hco (ca_partial f3 C) Hag E6) as (K1 & K2 & K3).
           refine (post_after _ _ _ _ f6 anc3 g6 _ _ _ _ _ J3 (IH _ _ _ _ _ _ _ K3 H)); [rewrite K2; exact J1|]. destruct J2, K1; split; cbn in *; congruence.
        -- intros H. injection H as <- <- <- <-. apply reset_stop in E6 as (-> & -> & _ & _).
           apply (post_after _ _ _ _ f3 anc3 g3 _ _ _ J1 J2 J3). exact (ready_post _ _ _ F4 Ho3).
      * destruct (1 <? f_cols f3) eqn:Ec.
        -- apply Nat.ltb_lt in Ec. pose proof (ready_again _ _ _ _ (proj1 F4) (many_cols f3 Ec)) as Hag. destruct (last_child f3 anc3) eqn:El.
           ++ intros H. injection H as <- <- <- <-. apply (post_after _ _ _ _ f3 anc3 g3 _ _ _ J1 J2 J3). exact (ready_post _ _ _ F4 Ho3).
           ++ destruct (start_step g3 anc3 f3 C Ec Er El Hag) as (f5 & anc5 & -> & K1 & K2 & K3 & K4).
              assert (J2' : drift f f5) by (destruct J2, K1; split; congruence). pose proof (drift_trans _ _ _ J3 K2) as J3'.
              destruct (f_will f5) eqn:Ew.
              ** destruct K3 as [(Htg & Hag5)|(K & _)]; [|congruence]. destruct (reset f5 g3) as [[go f6] g6] eqn:E6.
                 pose proof (target_go _ _ _ _ _ Htg E6); subst go. destruct Htg as (T1 & T2 & _).
                 destruct (reset_step f5 anc5 g3 f6 g6 T1 T2 Hag5 E6) as (M1 & M2 & M3). intros H.
                 refine (post_after _ _ _ _ f6 anc5 g6 _ _ _ _ _ J3' (IH _ _ _ _ _ _ _ M3 H)); [rewrite M2; exact J1|]. destruct J2', M1; split; congruence.
              ** intros H. injection H as <- <- <- <-. split; [exact J1|]. split; [exact J2'|]. split; [exact J3'|].
                 destruct K3 as [((_ & _ & [(K & _)|(_ & K & _)]) & _)|(_ & _ & K3)]; [congruence|congruence|exact K3].
        -- intros H. injection H as <- <- <- <-. apply (post_after _ _ _ _ f3 anc3 g3 _ _ _ J1 J2 J3). exact (ready_post _ _ _ F4 Ho3).
Qed.
Lemma part_step fuel : fine (run_part start crun save restore fuel).
Proof.
  induction fuel as [|fuel IH]; [intros f anc g act f' anc' g' _; discriminate|]. cbn [run_part]. apply loop_step, IH.
Qed.
End Page.

(** ** A page *)
Definition cleft (c : content) : list T :=
  if c_finished c then [] else match c_part c with None => ltoks (c_elems c) | Some f => sec (c_heap c) f end.
Definition cinv (c : content) : Prop :=
  c_finished c = false /\ eoks (cnt (c_cols c)) (c_elems c) /\
  match c_part c with
  | None => True
  | Some f => f_elems f = c_elems c /\ f_cols f = c_cols c /\ f_partial f = None /\
      tidy (cnt (c_cols c)) (c_heap c) (c_elems c) (f_sindex f) (f_sdelayed f) (rev (f_memory f))
  end.
Lemma fresh_cinv l cols gap : eoks (cnt cols) l -> cinv (fresh_content l cols gap) /\ cleft (fresh_content l cols gap) = ltoks l.
Proof. intros H. split; [split; [reflexivity|split; [exact H|exact I]]|reflexivity]. Qed.
Lemma page_step fuel x y w h (c c' : content) (o : @output O P L) :
  cinv c -> match c_part c with None => True | Some f => thr = 1 \/ c_cols c <= 1 /\ clear (c_elems c) (f_sindex f) (rev (f_memory f)) end -> run start crun save restore fuel x y w h c = Done (c', o) ->
  same (cleft c) (toks (o_parts o) ++ cleft c') /\ if c_finished c' then cleft c' = [] else cinv c'.
Proof.
  intros (Hf & Hel & Hp) Hthr. unfold run.
  assert (Hst : forall f1, (match c_part c with
     | None => new_part (c_elems c) (c_cols c) (c_gap c) true x w y (y - h)%Q 0
     | Some p => setup x w y (y - h)%Q 0 p end) = Done f1 ->
     f_elems f1 = c_elems c /\ f_cols f1 = c_cols c /\ ready (cleft c) (mkG (P := P) (L := L) [] [] (c_heap c) (c_tries c)) f1 []).
  { assert (Hset : forall (f0 f1 : part) , setup x w y (y - h)%Q 0 f0 = Done f1 -> f_elems f0 = c_elems c -> f_cols f0 = c_cols c -> f_partial f0 = None ->
      tidy (cnt (c_cols c)) (c_heap c) (c_elems c) (f_sindex f0) (f_sdelayed f0) (rev (f_memory f0)) -> f_memory f0 = [] /\ f_sdelayed f0 = [] \/ thr = 1 \/ c_cols c <= 1 /\ clear (c_elems c) (f_sindex f0) (rev (f_memory f0)) -> cleft c = sec (c_heap c) f0 ->
      f_elems f1 = c_elems c /\ f_cols f1 = c_cols c /\ ready (cleft c) (mkG (P := P) (L := L) [] [] (c_heap c) (c_tries c)) f1 []).
    { intros f0 f1 Hs E1 E2 E3 Ht H1 Hcl. unfold setup in Hs. rewrite E2 in Hs. destruct (c_cols c) as [|n0] eqn:Ec; [discriminate|]. rewrite <- Ec in *.
      injection Hs as <-. split; [exact E1|]. split; [reflexivity|]. set (f1 := mkPart _ _ _ _ _ _ _ _ _ _ _ _ _ _ _ _ _ _ _ _ _ _ _ _ _).
      assert (Hreg : mode f1 [] = cnt (c_cols c)) by (unfold mode; cbn [fold_right]; apply Nat.add_0_r).
      assert (Hm : memo f1 = rev (f_memory f0)) by (unfold memo; cbn [f1 f_index f_sindex f_memory]; rewrite Nat.eqb_refl; reflexivity).
      assert (Hown : own (c_heap c) f1 = sec (c_heap c) f0) by (unfold own; rewrite Hm; reflexivity).
      split.
      - cbn [g_heap]. rewrite Hown. constructor; cbn [g_heap g_parts length]; [|exact I|].
        + constructor; [constructor; cbn; try reflexivity; try lia; try discriminate; exact E3|rewrite Hreg; cbn [f1 f_elems]; rewrite E1; exact Hel| |].
          * intros Hr. unfold sec_tidy. cbn [f1 f_elems f_sindex f_sdelayed f_memory]. rewrite E1. destruct H1 as [[-> ->]|[H1|[H1 _]]]; [left; reflexivity| |apply Nat.ltb_lt in Hr; cbn [f1 f_cols] in Hr; lia].
            apply (tidy_any _ _ (cnt (c_cols c))); [|exact Ht]. unfold cnt. change (many f1) with (1 <? c_cols c) in Hr. rewrite Hr. lia.
          * intros K. cbn [f1 f_elems f_sindex f_memory]. rewrite E1. destruct H1 as [[-> _]|[H1|[_ H1]]]; [exact I|lia|exact H1].
        + unfold covers0. destruct (many f1).
          * cbn [f1 f_pindex covers firstn toks flat_map]. change (sec (c_heap c) f1) with (sec (c_heap c) f0). rewrite Hcl. unfold slice. cbn [firstn skipn flat_map app]. split; [lia|]. split; apply (cg_refl _ same_ok).
          * cbn [covers firstn toks flat_map app]. rewrite Hcl. apply (cg_refl _ same_ok).
      - cbn [g_heap]. rewrite Hreg, Hm. cbn [f1 f_elems f_index f_delayed]. rewrite E1. exact Ht. }
    intros f1 Hs. unfold cleft in *. rewrite Hf in *. destruct (c_part c) as [f0|].
    - destruct Hp as (K1 & K2 & K3 & K4). refine (Hset f0 f1 Hs K1 K2 K3 K4 _ eq_refl). right; exact Hthr.
    - refine (Hset _ f1 Hs eq_refl eq_refl eq_refl _ _ _); [left; reflexivity|left; split; reflexivity|reflexivity]. }
  destruct (match c_part c with None => _ | Some p => _ end) as [f1| |]; cbn [abind]; try discriminate.
  destruct (Hst f1 eq_refl) as (E1 & E2 & Hr). clear Hst.
  destruct (run_part start crun save restore fuel f1 [] _) as [[act [[f2 anc2] g2]]| |] eqn:Er; cbn [abind]; try discriminate.
  destruct (part_step (cleft c) fuel f1 [] _ act f2 anc2 g2 Hr Er) as (P1 & P2 & P3 & P4). inversion P3; subst anc2.
  intros H. injection H as <- <-. cbn [o_parts c_finished]. unfold cleft at 2 3. cbn [c_finished c_part c_heap].
  destruct act as [[| |]|].
  - rewrite Hf. destruct P4 as (K1 & K2 & K3 & K4 & K5). cbn [root last] in *. split; [exact K1|]. split; [reflexivity|]. split; [exact Hel|]. cbn [c_part c_cols c_heap c_elems].
    assert (Q1 : f_elems f2 = c_elems c) by congruence. assert (Q2 : f_cols f2 = c_cols c) by congruence.
    split; [exact Q1|]. split; [exact Q2|]. split; [exact K5|]. rewrite Q1, Q2 in K2. exact K2.
  - destruct P4.
  - destruct P4.
  - destruct P4 as [_ P4]. cbn [covers] in P4. rewrite firstn_all in P4. split; [exact P4|reflexivity].
Qed.
End Cols.
