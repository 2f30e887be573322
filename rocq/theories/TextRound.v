(** How far the rounded moves of the lines of a paragraph take them from where
    they should be (C38, C60). *)
From Coq Require Import String QArith Qabs Lqa Lia.
From Verif Require Import Py PyStr Gfx TextLayout TextProofs TextWords TextOrder TextFit TextWidth TextEmit TextMarks TextTerm TextApart.
Open Scope list_scope.

(** ** Specification *)

(** At most [tol] away in each direction. *)
Definition near (tol : Q) (pos want : Q * Q) : Prop :=
  (Qabs (fst pos - fst want) <= tol /\ Qabs (snd pos - snd want) <= tol)%Q.
(** [n] times the error of one rounding. *)
Definition times (n : nat) (eps : Q) : Q := (inject_Z (Z.of_nat n) * eps)%Q.

Lemma abs_iff x t : (Qabs x <= t)%Q <-> (- t <= x /\ x <= t)%Q.
Proof. apply Qabs_Qle_condition. Qed.

Section Round.
Variable round3 : Q -> Q.
Hypothesis round3_proper : forall x y, (x == y)%Q -> (round3 x == round3 y)%Q.
Variable eps : Q.
Hypothesis rounds : forall q, (Qabs (round3 q - q) <= eps)%Q.
Notation rrest := (rrest round3).
Notation rtotal := (rtotal round3).
Notation rsteps := (rsteps round3).
Notation rpos := (rpos round3).
Notation rstart := (rstart round3).
Notation times n := (times n eps).

Lemma round_near q : (q - eps <= round3 q <= q + eps)%Q.
Proof. pose proof (rounds q) as H. apply abs_iff in H. lra. Qed.
Lemma eps_pos : (0 <= eps)%Q.
Proof. pose proof (round_near 0). lra. Qed.
Lemma times_S n : (times (S n) == times n + eps)%Q.
Proof. unfold TextRound.times. rewrite Nat2Z.inj_succ, <- Z.add_1_r, inject_Z_plus. ring. Qed.
Lemma times_0 : (times 0 == 0)%Q.
Proof. unfold TextRound.times. cbn. ring. Qed.
Lemma times_le n m : (n <= m)%nat -> (times n <= times m)%Q.
Proof. pose proof eps_pos. induction 1; [apply Qle_refl|]. rewrite times_S. lra. Qed.
Lemma times_pos n : (0 <= times n)%Q.
Proof. pose proof (times_le 0 n (Nat.le_0_l n)). rewrite times_0 in H. exact H. Qed.

Lemma rrest_near c ls : (rest_height c ls - times (List.length ls) <= rrest c ls <= rest_height c ls + times (List.length ls))%Q.
Proof.
  induction ls as [|l ls IH]; cbn [List.length TextEmit.rrest].
  - rewrite times_0. change (rest_height c []) with 0%Q. lra.
  - rewrite times_S. pose proof (round_near (line_height l * c_lh c)).
    assert (E : (rest_height c (l :: ls) == line_height l * c_lh c + rest_height c ls)%Q) by (unfold rest_height; cbn; ring).
    rewrite E. lra.
Qed.
Lemma rrest_app c xs ys : (rrest c (xs ++ ys) == rrest c xs + rrest c ys)%Q.
Proof. induction xs as [|l xs IH]; cbn [app TextEmit.rrest]; [ring|]. rewrite IH. ring. Qed.
Lemma rest_app c xs ys : (rest_height c (xs ++ ys) == rest_height c xs + rest_height c ys)%Q.
Proof.
  induction xs as [|l xs IH]; cbn [app]; [change (rest_height c []) with 0%Q; ring|].
  assert (E : forall zs, (rest_height c (l :: zs) == line_height l * c_lh c + rest_height c zs)%Q) by (intros; unfold rest_height; cbn; ring).
  rewrite !E, IH. ring.
Qed.
Lemma rtotal_near c ex ls : ls <> [] ->
  (ex + total_height c ls - times (List.length ls) <= rtotal c ex ls <= ex + total_height c ls + times (List.length ls))%Q.
Proof.
  destruct ls as [|l ls]; [congruence|intros _]. cbn [List.length TextEmit.rtotal total_height]. rewrite times_S.
  pose proof (round_near (ex + line_height l)). pose proof (rrest_near c ls). lra.
Qed.
(** Between two lines only the moves from the first to the second count. *)
Lemma rtotal_between c ex l xs ys : let zs := (l :: xs) ++ ys in
  (rtotal c ex zs - rtotal c ex (l :: xs) >= total_height c zs - total_height c (l :: xs) - times (List.length ys))%Q.
Proof.
  intros zs. subst zs. cbn [app TextEmit.rtotal total_height]. pose proof (rrest_app c xs ys). pose proof (rest_app c xs ys).
  pose proof (rrest_near c ys). lra.
Qed.
Lemma rsteps_near ks : forall x, (lastx x ks - x - times (List.length ks) <= rsteps x ks <= lastx x ks - x + times (List.length ks))%Q.
Proof.
  induction ks as [|k ks IH]; intros x; cbn [List.length TextEmit.rsteps lastx].
  - rewrite times_0. lra.
  - rewrite times_S. pose proof (round_near (k_x k - x)). specialize (IH (k_x k)). lra.
Qed.
Lemma rstart_near g ks : (forall q, Qabs (g q - q) <= eps)%Q ->
  (lastx 0 ks - times (List.length ks) <= rstart g ks <= lastx 0 ks + times (List.length ks))%Q.
Proof.
  intros Hg. destruct ks as [|k ks]; cbn [List.length TextEmit.rstart lastx].
  - rewrite times_0. lra.
  - rewrite times_S. specialize (Hg (k_x k)). apply abs_iff in Hg. pose proof (rsteps_near ks (k_x k)). lra.
Qed.

(** The wanted parts after rounded moves are near where they should be. *)
Definition same_near (tol : Q) (u v : lpart * Q * (Q * Q)) : Prop := fst u = fst v /\ near tol (snd v) (snd u).
Lemma wants_near c g a b ex lks : (forall q, Qabs (g q - q) <= eps)%Q -> forall bef,
  Forall2 (same_near (times (List.length (bef ++ lks)))) (wants c a (b - ex) (map fst bef) lks) (wants_at (rpos c g a b ex) bef lks).
Proof.
  intros Hg. induction lks as [|[l k] lks IH]; intros bef; cbn [wants wants_at]; [constructor|].
  apply Forall2_app.
  - unfold line_wants. assert (N : near (times (List.length (bef ++ (l, k) :: lks)))
      (rpos c g a b ex (bef ++ [(l, k)])) (line_pos c a (b - ex) (map fst bef ++ [l]) k)).
    { unfold TextEmit.rpos, line_pos, near. cbn [fst snd]. rewrite !map_app. cbn [map fst snd].
      pose proof (rstart_near g (map snd bef ++ [k]) Hg) as H1. rewrite lastx_snoc in H1.
      assert (Hne : map fst bef ++ [l] <> []) by (destruct (map fst bef); discriminate).
      pose proof (rtotal_near c ex _ Hne) as H2.
      assert (HL : (times (S (List.length bef)) <= times (List.length (bef ++ (l, k) :: lks)))%Q).
      { apply times_le. rewrite app_length. cbn [List.length]. lia. }
      rewrite app_length, map_length, Nat.add_1_r in H1, H2.
      split; apply abs_iff; lra. }
    induction (filter _ _) as [|p ps IHp]; cbn [map]; constructor; [split; [reflexivity|exact N]|exact IHp].
  - specialize (IH (bef ++ [(l, k)])). rewrite map_app, <- app_assoc in IH. exact IH.
Qed.

(** The second text on the line of the first, or at most [tol] over its bottom. *)
Notation rise p := (t_rise (y_state (lp_style p))).
Notation fsize p := (t_size (y_state (lp_style p))).
Definition under_near (tol : Q) (u v : lpart * Q * (Q * Q)) : Prop :=
  let '(p, _, (_, y1)) := u in let '(q, _, (_, y2)) := v in
  (y1 == y2 \/ y2 + rise q + fsize q <= y1 + rise p + tol)%Q.
Lemma wants_at_in pos lks : forall bef w, In w (wants_at pos bef lks) ->
  exists a l k b p, lks = a ++ (l, k) :: b /\ w = (p, k_factor k, pos (bef ++ a ++ [(l, k)])) /\ In p (l_parts l).
Proof.
  induction lks as [|[l k] lks IH]; intros bef w Hw; cbn [wants_at] in Hw; [destruct Hw|].
  apply in_app_iff in Hw as [Hw|Hw].
  - unfold line_wants in Hw. apply in_map_iff in Hw as (p & <- & Hp). apply filter_In in Hp as [Hp _].
    exists [], l, k, lks, p. repeat split; assumption.
  - destruct (IH _ _ Hw) as (a & l' & k' & b & p & -> & -> & Hp). exists ((l, k) :: a), l', k', b, p.
    repeat split; [|exact Hp]. rewrite <- app_assoc. reflexivity.
Qed.
Lemma wants_at_under c g x y ex ls (ks : list mark) : (1 <= c_lh c)%Q ->
  (~ In CBr (c_content c) \/ forall y, In y (styles (c_content c)) -> (- c_lh c <= t_rise (y_state y))%Q) ->
  TextApart.lines_ok c ls -> List.length ks = List.length ls ->
  ForallOrdPairs (under_near (times (pred (List.length ls)))) (wants_at (rpos c g x y ex) [] (combine ls ks)).
Proof.
  intros Hlh Hlow Hok Hlen.
  assert (G : forall lks bef, ls = map fst bef ++ map fst lks -> ForallOrdPairs (under_near (times (pred (List.length ls)))) (wants_at (rpos c g x y ex) bef lks)).
  { induction lks as [|[l k] lks IH]; intros bef E; cbn [wants_at]; [constructor|]. apply pairs_app.
    - apply pairs_all. intros u v Hu Hv. unfold line_wants in Hu, Hv. apply in_map_iff in Hu as (p & <- & _).
      apply in_map_iff in Hv as (q & <- & _). left. reflexivity.
    - apply IH. rewrite map_app, <- app_assoc. exact E.
    - intros u v Hu Hv. unfold line_wants in Hu. apply in_map_iff in Hu as (p & <- & Hp). apply filter_In in Hp as [Hp _].
      destruct (wants_at_in _ _ _ _ Hv) as (a & m & k' & b & q & Ea & -> & Hq). right.
      cbn [map fst] in E. rewrite Ea, map_app in E. cbn [map fst] in E.
      pose proof (part_under c Hlh Hlow ls Hok (map fst bef) l (map fst a) m (map fst b) q p E Hp Hq) as H.
      rewrite !map_app. cbn [map fst]. rewrite <- app_assoc. cbn [app].
      assert (Hsplit : exists l0 xs, map fst bef ++ [l] = l0 :: xs) by (destruct (map fst bef); eexists _, _; reflexivity).
      destruct Hsplit as (l0 & xs & Ex).
      assert (E2 : map fst bef ++ l :: map fst a ++ [m] = (l0 :: xs) ++ (map fst a ++ [m])) by (rewrite <- Ex, <- app_assoc; reflexivity).
      pose proof (rtotal_between c ex l0 xs (map fst a ++ [m])) as HB. cbv zeta in HB. rewrite <- E2, <- Ex in HB.
      assert (HL : (times (List.length (map fst a ++ [m])) <= times (pred (List.length ls)))%Q).
      { apply times_le. rewrite E, !app_length. cbn [List.length]. rewrite app_length. cbn [List.length]. lia. }
      lra. }
  apply G. cbn [app map]. rewrite map_fst_combine by exact Hlen. reflexivity.
Qed.
Lemma wants_at_inside c g x y ex ls (ks : list mark) : (1 <= c_lh c)%Q -> TextApart.lines_ok c ls -> List.length ks = List.length ls ->
  Forall (fun w : lpart * Q * (Q * Q) => let '(p, _, (_, y1)) := w in
    y1 + rise p + fsize p <= y - ex + times (List.length ls) /\ y - ex - total_height c ls - times (List.length ls) <= y1)%Q
    (wants_at (rpos c g x y ex) [] (combine ls ks)).
Proof.
  intros Hlh Hok Hlen. apply Forall_forall. intros w Hw. destruct (wants_at_in _ _ _ _ Hw) as (a & l & k & b & p & Ea & -> & Hp).
  assert (E : ls = map fst a ++ l :: map fst b).
  { rewrite <- (map_fst_combine ls ks Hlen), Ea, map_app. reflexivity. }
  pose proof (part_top c Hlh ls Hok _ _ _ _ E Hp) as H1.
  assert (E2 : ls = (map fst a ++ [l]) ++ map fst b ++ []) by (rewrite app_nil_r, <- app_assoc; exact E).
  pose proof (total_mono c Hlh ls Hok _ _ _ E2) as H2. rewrite app_nil_r in E2. rewrite <- E2 in H2.
  cbn [app]. unfold TextEmit.rpos. rewrite !map_app. cbn [map fst].
  assert (Hne : map fst a ++ [l] <> []) by (destruct (map fst a); discriminate).
  pose proof (rtotal_near c ex _ Hne) as H3.
  assert (HL : (times (List.length (map fst a ++ [l])) <= times (List.length ls))%Q).
  { apply times_le. rewrite E, !app_length. cbn [List.length]. lia. }
  split; lra.
Qed.
End Round.
