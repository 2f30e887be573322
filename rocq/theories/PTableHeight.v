(** Tables: property C74, the room a table takes. *)
From Coq Require Import QArith ZArith Lia Lqa.
From Verif Require Import Py Table TableProofs TableGeom PTable.
Open Scope list_scope.
Open Scope nat_scope.

Section Room.
Context {E W P F B : Type}.
Variable start : E -> res W.
Variable crun : W -> Q -> Q -> Q -> Q -> res (W * Q * bool * list P).
Variable b_eqb : B -> B -> bool.
Variable t : @table E F B.
Notation heights := (@heights E W P F).

Lemma heights_app (a b : list (Q * list (@event E W P F))) : (heights (a ++ b) == heights a + heights b)%Q.
Proof. unfold PTable.heights. rewrite map_app. apply qsum_app. Qed.
Lemma heights_one h evs : (heights [(h, evs)] == h)%Q.
Proof. unfold PTable.heights. cbn. lra. Qed.
Lemma heights_nonneg (l : list (Q * list (@event E W P F))) : (forall r, In r l -> (0 <= fst r)%Q) -> (0 <= heights l)%Q.
Proof.
  induction l as [|r l IH]; intros H; unfold PTable.heights; cbn [map qsum]; [lra|].
  pose proof (H r (or_introl eq_refl)). specialize (IH (fun r0 K => H r0 (or_intror K))). unfold PTable.heights in IH. lra.
Qed.
Lemma snoc_split {A} (a b c : list A) (u v : A) : a ++ [u] = b ++ v :: c -> (c = [] /\ a = b /\ u = v) \/ exists c', c = c' ++ [u] /\ a = b ++ v :: c'.
Proof.
  intros H. destruct (exists_last (l := v :: c)) as (c' & w & Ec); [discriminate|]. rewrite Ec, app_assoc in H. apply app_inj_tail in H as [-> ->].
  destruct c' as [|v' c']; [left|right].
  - cbn in Ec. injection Ec as -> ->. rewrite app_nil_r. auto.
  - cbn in Ec. injection Ec as <- ->. eauto.
Qed.

(** C74: if no cell takes more than the room it gets, a row ends within the
    height of the table or is at most four points high; if every cell takes
    some height, the table takes at most the height it gets. *)
Theorem C74_height_partial x y width height s s' o : (t_first s = true -> t_delayed s = []) ->
  run start crun b_eqb t x y width height s = Ok (s', o) -> o_cancel o = false ->
  (forall e, In e (o_events o) -> (0 < e_height e)%Q -> (e_height e <= e_h e)%Q) ->
  (exists rows, o_events o = flat_map snd rows /\ (o_height o == heights rows)%Q /\
     forall a h evs b, rows = a ++ (h, evs) :: b -> (0 <= h)%Q /\ ((heights (a ++ [(h, evs)]) <= height)%Q \/ (h <= 4)%Q)) /\
  ((0 <= height)%Q -> (forall e, In e (o_events o) -> (0 < e_height e)%Q) -> (o_height o <= height)%Q).
Proof.
  intros Hf H Hc Hroom. destruct (C45_rows start crun b_eqb t x y width height s s' o Hf H) as [_ K]. destruct (K Hc) as (rows & K1 & K2 & K3). clear K.
  assert (Hin : forall a h evs b e, rows = a ++ (h, evs) :: b -> In e evs -> In e (o_events o)).
  { intros a h evs b e -> He. rewrite K1, flat_map_app. apply in_or_app. right. cbn [flat_map snd]. apply in_or_app. now left. }
  assert (Hrow : forall a h evs b, rows = a ++ (h, evs) :: b -> (0 <= h)%Q /\
    ((h == 0)%Q \/ (heights (a ++ [(h, evs)]) <= height)%Q \/ ((h <= 4)%Q /\ exists e, In e (o_events o) /\ (e_height e <= 0)%Q))).
  { intros a h evs b E1. destruct (K3 a h evs b E1) as (H0 & [Hz|(a1 & h1 & evs1 & b1 & e & E2 & E3 & _ & E4)] & _); (split; [exact H0|]); [now left|right].
    assert (E5 : rows = a1 ++ (h1, evs1) :: b1 ++ b).
    { rewrite E1. change ((h, evs) :: b) with ([(h, evs)] ++ b). rewrite app_assoc, E2, <- app_assoc. reflexivity. }
    pose proof (Hin _ _ _ _ _ E5 E3) as He. destruct (K3 _ _ _ _ E5) as (H1 & _ & K4). destruct (K4 e E3) as (_ & Ky & Kh & _). cbv zeta in Kh.
    destruct (qlt 0 (e_height e)) eqn:Eq.
    - left. apply qlt_true in Eq. specialize (Hroom e He Eq). rewrite E2. rewrite heights_app. lra.
    - right. apply qlt_false in Eq. split; [|eauto].
      assert (Hle : (heights ((h1, evs1) :: b1) <= 4)%Q) by (destruct (t_first s && _)%bool in E4; lra).
      assert (Hall : forall r, In r rows -> (0 <= fst r)%Q).
      { intros [h2 ev2] Hr. apply in_split in Hr as (l1 & l2 & Hr). exact (proj1 (K3 _ _ _ _ Hr)). }
      destruct (snoc_split _ _ _ _ _ E2) as [(-> & _ & [= <- <-])|(c & -> & _)].
      + unfold PTable.heights in Hle. cbn in Hle. lra.
      + change ((h1, evs1) :: c ++ [(h, evs)]) with (((h1, evs1) :: c) ++ [(h, evs)]) in Hle. rewrite heights_app in Hle.
        assert (0 <= heights ((h1, evs1) :: c))%Q.
        { apply heights_nonneg. intros r Hr. apply Hall. rewrite E5. apply in_or_app. right. destruct Hr as [<-|Hr]; [now left|]. right. apply in_or_app. left. apply in_or_app. now left. }
        rewrite (heights_one h evs) in Hle. lra. }
  split.
  - exists rows. split; [exact K1|]. split; [exact K2|]. intros a h evs b E1. destruct (Hrow a h evs b E1) as (H0 & [Hz|[Hl|[Hl _]]]); (split; [exact H0|]); [right; lra|now left|now right].
  - intros Hh Hpos. rewrite K2. clear K2. assert (Hgen : forall a b, rows = a ++ b -> (heights a <= height)%Q).
    { intros a. induction a as [|r a IH] using rev_ind; intros b Eb; [unfold PTable.heights; cbn; exact Hh|]. destruct r as [h evs].
      rewrite <- app_assoc in Eb. cbn [app] in Eb. destruct (Hrow a h evs b Eb) as (_ & [Hz|[Hl|(_ & e & He & Hle)]]).
      - specialize (IH _ Eb). rewrite heights_app, heights_one. lra.
      - exact Hl.
      - specialize (Hpos e He). lra. }
    apply (Hgen rows []). now rewrite app_nil_r.
Qed.
End Room.

(** ** It applies, and what does not hold *)
(** Cells of lines that are ten points high. *)
Fixpoint fitting (n : nat) (h : Q) : nat := match n with 0 => 0 | S n => if Qle_bool 10 h then S (fitting n (h - 10)) else 0 end.
Definition ln_run (n : nat) (cx cy cw ch : Q) : res (nat * Q * bool * list nat) :=
  let k := fitting n ch in Ok (n - k, (inject_Z (Z.of_nat k) * 10)%Q, n - k =? 0, [k]).
Definition ln_cell (n : nat) : @cell nat unit := mkCell 1 1 (mkCS 1 1 1 1 None) n.
Definition ln_table (rows : list (list nat)) : @table nat unit unit :=
  mkTable (map (map ln_cell) rows) (match rows with [] => 0 | r :: _ => List.length r end) [1 # 2; 1 # 2]%Q (ln_cell 0) (fun _ _ => mkB 1 tt) (fun _ _ => mkB 1 tt) (fun _ _ => None).
Definition ln_go (rows : list (list nat)) (h : Q) := run (@Ok nat) ln_run (fun _ _ => true) (ln_table rows) 0 100 300 h fresh_table.
Example C74_applies : exists s o, ln_go [[1; 2]; [1; 3]; [1; 1]] 70 = Ok (s, o) /\ o_cancel o = false /\
  (forall e, In e (o_events o) -> (0 < e_height e)%Q /\ (e_height e <= e_h e)%Q) /\ (o_height o == 69)%Q.
Proof.
  do 2 eexists. split; [vm_compute; reflexivity|]. split; [reflexivity|]. split; [|reflexivity].
  intros e He. cbn [o_events] in He. repeat (destruct He as [<-|He]; [vm_compute; split; congruence|]). destruct He.
Qed.
(** Where no line fits any more, the row is four points high nonetheless: the
    table is given 14 points and takes 17. *)
Theorem C74_height_refuted : exists s o, ln_go [[1; 1]; [1; 1]] 14 = Ok (s, o) /\ o_cancel o = false /\
  (forall e, In e (o_events o) -> (0 < e_height e)%Q -> (e_height e <= e_h e)%Q) /\ (14 < o_height o)%Q.
Proof.
  do 2 eexists. split; [vm_compute; reflexivity|]. split; [reflexivity|]. split; [|reflexivity].
  intros e He. cbn [o_events] in He. repeat (destruct He as [<-|He]; [vm_compute; intros; congruence|]). destruct He.
Qed.
Print Assumptions C74_height_partial.
Print Assumptions C74_applies.
Print Assumptions C74_height_refuted.
