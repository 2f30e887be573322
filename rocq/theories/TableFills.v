(** The rectangles filled behind the cells of a table. *)
From Coq Require Import QArith ZArith Lia Lqa.
From Verif Require Import Py Table TableProofs TableGeom TableSpan.
Open Scope list_scope.
Open Scope nat_scope.

Lemma nset_keys {V} k (v : V) d : NoDup (map fst d) -> NoDup (map fst (nset k v d)).
Proof.
  assert (Hin : forall d k', In k' (map fst (nset k v d)) -> k' = k \/ In k' (map fst d)).
  { induction d0 as [|[a b] d0 IH]; cbn [nset map fst]; intros k'; [intros [K|[]]; auto|].
    destruct (k =? a) eqn:E; cbn [map fst In]; [tauto|]. intros [K|K]; [auto|]. destruct (IH _ K); auto. }
  induction d as [|[a b] d IH]; cbn [nset map fst]; intros H; [constructor; [intros []|constructor]|].
  inversion H as [|? ? H1 H2]; subst. destruct (k =? a) eqn:E; cbn [map fst]; [constructor; assumption|].
  constructor; [|auto]. intros K. destruct (Hin _ _ K) as [->|K2]; [rewrite Nat.eqb_refl in E; discriminate|contradiction].
Qed.
Lemma nget_some {V} k (v : V) d : NoDup (map fst d) -> In (k, v) d -> nget k d = Some v.
Proof.
  induction d as [|[a b] d IH]; cbn [map fst nget In]; intros H; [intros []|]. inversion H as [|? ? H1 H2]; subst. intros [[= -> ->]|K]; [now rewrite Nat.eqb_refl|].
  destruct (k =? a) eqn:E; [|auto]. apply Nat.eqb_eq in E. subst a. exfalso. apply H1. change k with (fst (k, v)). now apply in_map.
Qed.

Section Fills.
Context {E W P F B : Type}.
Variable start : E -> res W.
Variable crun : W -> Q -> Q -> Q -> Q -> res (W * Q * bool * list P).
Variable t : @table E F B.
Notation rstate := (@rstate E W P F B).
Notation incell := (@incell E W F).
Notation event := (@event E W P F).
Notation rowrec := (@rowrec E W P F).
Notation fill := (@fill F).
Implicit Types (r : rstate) (e : event) (el : incell).
Variable rows : list (list incell).
Variable base n : nat.
Variable A : nat -> nat -> bool.
Hypothesis HA : tiling t rows base n A.
Variable x y width height : Q.
Notation scan := (scan start crun t x width).
Notation row_ok := (row_ok start crun t x y width height).
Notation trace := (trace start crun t x y width height).
Notation at_pos := (at_pos rows).
Notation covers := (covers t rows base).
Notation span_inv := (span_inv t rows base A).
Notation count_inv := (count_inv t rows base A).
Variable Y : nat -> Q.

(** The colour of a cell; the last row it takes. *)
Definition paint (i c : nat) (el : incell) : option F := match s_fill (style_of t el) with Some f => Some f | None => t_fills t (base + i) c end.
Definition reach (i : nat) (el : incell) : nat := i + Z.to_nat (rows_left t (base + i) el).
(** The fill of the cell at (i0, c), after the rows before [i]. *)
Definition fill_ok (i0 c i : nat) (later : bool) (el : incell) (f : fill) : Prop :=
  at_pos i0 c = Some el /\ paint i0 c el = Some (f_color f) /\ f_later f = later /\
  (f_x f == x + sum_widths t 0 c * width)%Q /\ (f_y f == Y i0)%Q /\ (f_w f == sum_widths t c (c + colspan_of t el) * width)%Q /\ (f_h f == Y i0 - Y i)%Q.
Definition open_fill (j i c : nat) (el : incell) (i0 : nat) : Prop :=
  i0 < j /\ A i0 c = true /\ at_pos i0 c = Some el /\ paint i0 c el <> None /\ i <= reach i0 el.
Definition later_of (c' c i : nat) (i0 : nat) (el : incell) : bool := if c' <? c then i <? reach i0 el else true.
Record finv (i c : nat) r : Prop := mkFinv {
  fi_keys : NoDup (map fst (r_fmem r));
  fi_some : forall c' f, nget c' (r_fmem r) = Some f -> c' < t_cols t /\ exists i0 el, open_fill (if c' <? c then S i else i) i c' el i0 /\ fill_ok i0 c' i (later_of c' c i i0 el) el f;
  fi_all : forall c' i0 el, c' < t_cols t -> open_fill (if c' <? c then S i else i) i c' el i0 -> exists f, nget c' (r_fmem r) = Some f }.
Lemma reach_covers i0 c i el : A i0 c = true -> at_pos i0 c = Some el -> i0 <= i -> i <= reach i0 el -> covers i0 c i c.
Proof.
  intros H1 H2 H3 H4. destruct (proj1 HA i0 c H1) as (el' & Q1 & _ & _ & Q4). assert (el' = el) by congruence. subst el'.
  exists el. split; [exact H2|]. split; [exact H3|]. unfold reach in H4. split; [lia|exact Q4].
Qed.
Lemma ltb_S c c' : (c' <? S c) = (if c' =? c then true else c' <? c).
Proof.
  destruct (c' =? c) eqn:E1; [apply Nat.eqb_eq in E1; apply Nat.ltb_lt; lia|]. apply Nat.eqb_neq in E1.
  destruct (c' <? c) eqn:E2; [apply Nat.ltb_lt in E2|apply Nat.ltb_ge in E2]; [apply Nat.ltb_lt|apply Nat.ltb_ge]; lia.
Qed.
Ltac at_c c := rewrite ltb_S, Nat.eqb_refl.
Ltac other Hne := rewrite ltb_S; replace (_ =? _) with false by (symmetry; apply Nat.eqb_neq; exact Hne).

(** A change of the memory of column [c] only. *)
Lemma finv_step i c r r' (new : option fill) : c < t_cols t -> finv i c r ->
  NoDup (map fst (r_fmem r')) -> (forall c', c' <> c -> nget c' (r_fmem r') = nget c' (r_fmem r)) -> nget c (r_fmem r') = new ->
  match new with
  | Some f => exists i0 el, open_fill (S i) i c el i0 /\ fill_ok i0 c i (i <? reach i0 el) el f
  | None => forall i0 el, ~ open_fill (S i) i c el i0
  end -> finv i (S c) r'.
Proof.
  intros Hc [K1 K2 K3] Hk Ho Hn Hnew. constructor; [exact Hk| |].
  - intros c' f Hf. destruct (Nat.eq_dec c' c) as [->|Hne].
    + rewrite Hn in Hf. rewrite Hf in Hnew. split; [exact Hc|]. unfold later_of. at_c c. exact Hnew.
    + rewrite Ho in Hf by exact Hne. unfold later_of. other Hne. apply K2. exact Hf.
  - intros c' i0 el Hc'. destruct (Nat.eq_dec c' c) as [->|Hne].
    + at_c c. intros Hop. rewrite Hn. destruct new as [f|]; [eauto|]. exfalso. exact (Hnew _ _ Hop).
    + other Hne. rewrite Ho by exact Hne. now apply K3.
Qed.
Lemma finv_proc i c r r' el e ya : i < n -> c < t_cols t -> (ya == Y i)%Q -> finv i c r -> processed t x width (base + i) ya r r' c el e -> A i c = true -> at_pos i c = Some el -> finv i (S c) r'.
Proof.
  intros Hi Hc Hya HF [_ _ _ Hf _ _ _ _ _ _ _] HAt Hel.
  assert (Hnone : forall i0 el0, i0 < i -> ~ open_fill (S i) i c el0 i0).
  { intros i0 el0 Hlt (_ & O2 & O3 & _ & O5). pose proof (reach_covers i0 c i el0 O2 O3 ltac:(lia) O5) as C.
    destruct (unique t rows base n A HA i c i c i0 c Hi Hc HAt O2 (proj1 HA i c HAt) C). lia. }
  assert (Hold : nget c (r_fmem r) = None).
  { destruct (nget c (r_fmem r)) as [f|] eqn:Eg; [|reflexivity]. exfalso. destruct (fi_some _ _ _ HF c f Eg) as (_ & i0 & el0 & (O1 & O2) & _).
    rewrite (proj2 (Nat.ltb_ge c c) (le_n c)) in O1. apply (Hnone i0 el0 O1). split; [lia|exact O2]. }
  unfold new_fill in Hf. fold (paint i c el) in Hf. destruct (paint i c el) as [col|] eqn:Ep.
  - match type of Hf with _ = nset c ?f _ => apply (finv_step i c r r' (Some f) Hc HF) end.
    + rewrite Hf. apply nset_keys, HF.
    + intros c' Hne. rewrite Hf. apply nget_nset_other. exact Hne.
    + rewrite Hf. apply nget_nset_same.
    + exists i, el. split; [split; [lia|]; split; [exact HAt|]; split; [exact Hel|]; split; [congruence|unfold reach; lia]|].
      unfold fill_ok; cbn [f_color f_later f_x f_y f_w f_h]. split; [exact Hel|]. split; [exact Ep|]. split.
      { unfold reach. destruct (0 <? rows_left t (base + i) el)%Z eqn:Er; [apply Z.ltb_lt in Er|apply Z.ltb_ge in Er]; symmetry; [apply Nat.ltb_lt|apply Nat.ltb_ge]; lia. }
      split; [reflexivity|]. split; [exact Hya|]. split; lra.
  - apply (finv_step i c r r' None Hc HF).
    + rewrite Hf. apply HF.
    + intros c' Hne. now rewrite Hf.
    + now rewrite Hf.
    + intros i0 el0 Hop. destruct (Nat.eq_dec i0 i) as [->|Hne0]; [|apply (Hnone i0 el0); [destruct Hop; lia|exact Hop]].
      destruct Hop as (_ & _ & O3 & O4 & _). assert (el0 = el) by congruence. subst. contradiction.
Qed.
Lemma finv_skip i c r r' : i < n -> c < t_cols t -> finv i c r -> skipped r r' c -> A i c = false -> span_inv i c r ->
  (nget c (r_span r) = None -> exists i0 c0, A i0 c0 = true /\ c0 < c /\ covers i0 c0 i c) -> finv i (S c) r'.
Proof.
  intros Hi Hc HF [_ _ _ Hf _ _ _ _ _ _ _] HAf HS Hcol. unfold fmem_after in Hf.
  assert (Hnot : forall el0, ~ open_fill (S i) i c el0 i) by (intros el0 (_ & O2 & _); congruence).
  destruct (nget c (r_span r)) as [[k w]|] eqn:En.
  - assert (HR : remembers t rows base A i c k w) by (apply HS in En as [_ En]; rewrite (proj2 (Nat.ltb_ge c c) (le_n c)) in En; exact En).
    destruct HR as (i1 & el1 & L1 & A1 & P1 & R1 & K1 & W1).
    assert (Hreach : reach i1 el1 = i + Z.to_nat (k - 1)) by (unfold reach; lia).
    assert (Huniq : forall i0 el0, open_fill (S i) i c el0 i0 -> i0 = i1 /\ el0 = el1).
    { intros i0 el0 (O1 & O2 & O3 & O4 & O5). pose proof (reach_covers i0 c i el0 O2 O3 ltac:(lia) O5) as C0.
      pose proof (reach_covers i1 c i el1 A1 P1 ltac:(lia) ltac:(lia)) as C1. destruct (unique t rows base n A HA i c i0 c i1 c Hi Hc O2 A1 C0 C1) as [-> _]. split; [reflexivity|congruence]. }
    assert (Hold : forall f, nget c (r_fmem r) = Some f -> open_fill (S i) i c el1 i1 /\ fill_ok i1 c i true el1 f).
    { intros f Eg. destruct (fi_some _ _ _ HF c f Eg) as (_ & i0 & el0 & (O1 & O2) & O3). unfold later_of in O3. rewrite (proj2 (Nat.ltb_ge c c) (le_n c)) in O1, O3.
      assert (Hop : open_fill (S i) i c el0 i0) by (split; [lia|exact O2]). destruct (Huniq _ _ Hop) as [-> ->]. auto. }
    assert (Hno : nget c (r_fmem r) = None -> forall i0 el0, ~ open_fill (S i) i c el0 i0).
    { intros Eg i0 el0 Hop. destruct (Huniq _ _ Hop) as [-> ->]. destruct (fi_all _ _ _ HF c i1 el1 Hc) as (f & K); [|congruence].
      rewrite (proj2 (Nat.ltb_ge c c) (le_n c)). split; [exact L1|apply Hop]. }
    destruct (k - 1 =? 0)%Z eqn:Ek.
    + apply Z.eqb_eq in Ek. destruct (nget c (r_fmem r)) as [f|] eqn:Eg.
      * destruct (Hold f eq_refl) as [Hop Hok].
        match type of Hf with _ = nset c ?f _ => apply (finv_step i c r r' (Some f) Hc HF) end.
        -- rewrite Hf. apply nset_keys, HF.
        -- intros c' Hne. rewrite Hf. apply nget_nset_other. exact Hne.
        -- rewrite Hf. apply nget_nset_same.
        -- exists i1, el1. split; [exact Hop|]. unfold fill_ok in *; cbn [f_color f_later f_x f_y f_w f_h]. destruct Hok as (Q1 & Q2 & Q3 & Q4). do 2 (split; [assumption|]). split; [symmetry; apply Nat.ltb_ge; lia|exact Q4].
      * apply (finv_step i c r r' None Hc HF); [rewrite Hf; apply HF|intros; now rewrite Hf|now rewrite Hf|exact (Hno eq_refl)].
    + apply Z.eqb_neq in Ek. apply (finv_step i c r r' (nget c (r_fmem r)) Hc HF); [rewrite Hf; apply HF|intros; now rewrite Hf|now rewrite Hf|].
      destruct (nget c (r_fmem r)) as [f|] eqn:Eg; [|exact (Hno eq_refl)]. destruct (Hold f eq_refl) as [Hop Hok]. exists i1, el1. split; [exact Hop|].
      replace (i <? reach i1 el1) with true by (symmetry; apply Nat.ltb_lt; lia). exact Hok.
  - destruct (Hcol eq_refl) as (i1 & c1 & A1 & L1 & C1).
    assert (Hno : forall i0 el0, ~ open_fill (S i) i c el0 i0).
    { intros i0 el0 (O1 & O2 & O3 & O4 & O5). pose proof (reach_covers i0 c i el0 O2 O3 ltac:(lia) O5) as C0.
      destruct (unique t rows base n A HA i c i0 c i1 c1 Hi Hc O2 A1 C0 C1). lia. }
    apply (finv_step i c r r' None Hc HF); [rewrite Hf; apply HF|intros; now rewrite Hf| |exact Hno].
    rewrite Hf. destruct (nget c (r_fmem r)) as [f|] eqn:Eg; [|reflexivity]. exfalso. destruct (fi_some _ _ _ HF c f Eg) as (_ & i0 & el0 & (O1 & O2) & _).
    rewrite (proj2 (Nat.ltb_ge c c) (le_n c)) in O1. apply (Hno i0 el0). split; [lia|exact O2].
Qed.

Lemma scan_fills i first del ya rm : i < n -> (del = true -> i = 0) -> (ya == Y i)%Q -> forall r c row r' evs, scan (base + i) first del ya rm r c row r' evs ->
  c + List.length row = t_cols t -> (forall j, nth_error row j = at_pos i (c + j)) -> span_inv i c r -> count_inv i c (r_colspan r) -> finv i c r ->
  finv i (t_cols t) r' /\ r_fills r' = r_fills r.
Proof.
  intros Hi Hdel Hya r c row r' evs H. induction H as [r c|r c el row r1 r2 evs H1 H2 H3 IH|r c el row e r1 r2 evs H1 H2 H3 H4 IH]; intros Hlen Hrow HS HC HF.
  - cbn in *. replace (t_cols t) with c by lia. auto.
  - cbn [List.length] in *. assert (Hc : c < t_cols t) by lia.
    assert (Hrow' : forall j, nth_error row j = at_pos i (S c + j)) by (intros j; specialize (Hrow (S j)); cbn in Hrow; rewrite Hrow; f_equal; lia).
    destruct (HA) as [HS0 HT]. destruct (HT i c Hi Hc) as (i0 & c0 & A0 & C0 & _).
    assert (Hco : colspan_after r c = r_colspan r1) by (destruct H2; symmetry; assumption).
    assert (Hfi : r_fills r1 = r_fills r) by apply H2. rewrite <- Hfi.
    destruct (nget c (r_span r)) as [[k w]|] eqn:En.
    + assert (HR : remembers t rows base A i c k w) by (apply HS in En as [_ En]; rewrite (proj2 (Nat.ltb_ge c c) (le_n c)) in En; exact En).
      destruct (remembers_covers t rows base n A HA _ _ _ _ HR) as (i1 & el1 & L1 & A1 & C1 & P1 & W1 & K1).
      assert (HAf : A i c = false).
      { destruct (A i c) eqn:Ea; [|reflexivity]. exfalso. destruct (unique t rows base n A HA i c i c i1 c Hi Hc Ea A1 (HS0 i c Ea) C1). lia. }
      apply IH; [lia|exact Hrow'|exact (span_skip_row t rows base n A HA _ _ _ _ _ _ Hi Hc HS H2 En)| |].
      * rewrite <- Hco. unfold colspan_after. rewrite En. apply (count_next t rows base n A HA i c i1 c el1); try assumption. lia.
      * apply (finv_skip i c r r1 Hi Hc HF H2 HAf HS). congruence.
    + unfold skips in H1. rewrite En in H1. apply Z.ltb_lt in H1. destruct HC as [HC _]. destruct (HC H1) as (i1 & c1 & A1 & L1 & el1 & P1 & Q1 & Q2 & Q3).
      assert (C1 : covers i1 c1 i c) by (exists el1; repeat (split; [assumption|]); lia).
      assert (HAf : A i c = false).
      { destruct (A i c) eqn:Ea; [|reflexivity]. exfalso. destruct (unique t rows base n A HA i c i c i1 c1 Hi Hc Ea A1 (HS0 i c Ea) C1). lia. }
      apply IH; [lia|exact Hrow'|exact (span_skip_col t rows base n A HA _ _ _ _ _ _ Hi Hc HS H2 En A1 L1 C1)| |].
      * rewrite <- Hco. unfold colspan_after. rewrite En. apply (count_next t rows base n A HA i c i1 c1 el1); try assumption. lia.
      * apply (finv_skip i c r r1 Hi Hc HF H2 HAf HS). eauto.
  - cbn [List.length] in *. assert (Hc : c < t_cols t) by lia.
    assert (Hrow' : forall j, nth_error row j = at_pos i (S c + j)) by (intros j; specialize (Hrow (S j)); cbn in Hrow; rewrite Hrow; f_equal; lia).
    assert (Hel : at_pos i c = Some el) by (specialize (Hrow 0); cbn in Hrow; rewrite Nat.add_0_r in Hrow; congruence).
    destruct (HA) as [HS0 HT]. destruct (HT i c Hi Hc) as (i0 & c0 & A0 & C0 & _).
    assert (En : nget c (r_span r) = None).
    { destruct (nget c (r_span r)) as [[k w]|] eqn:En; [|reflexivity]. exfalso. unfold skips in H1. rewrite En in H1. destruct del; [|discriminate].
      apply HS in En as [_ En]. rewrite (proj2 (Nat.ltb_ge c c) (le_n c)), (Hdel eq_refl) in En. destruct En as (i1 & ? & ? & _). lia. }
    unfold skips in H1. rewrite En in H1. apply Z.ltb_ge in H1. destruct HC as [_ HC].
    assert (HAt : A i c = true).
    { assert (Hc0 : c0 = c).
      { destruct (Nat.eq_dec c0 c) as [K|K]; [exact K|]. exfalso. assert (L : c0 < c) by (destruct C0 as (? & _ & _ & _ & ?); lia).
        exact (HC H1 i0 c0 A0 L C0). }
      subst c0. destruct (Nat.eq_dec i0 i) as [->|K]; [exact A0|]. exfalso.
      assert (L : i0 < i) by (destruct C0 as (? & _ & ? & _); lia).
      destruct (covers_remembers t rows base A i i0 c L A0 C0) as (k & w & HR).
      assert (K2 : nget c (r_span r) = Some (k, w)) by (apply HS; rewrite (proj2 (Nat.ltb_ge c c) (le_n c)); auto). congruence. }
    assert (Hfi : r_fills r1 = r_fills r) by apply H3. rewrite <- Hfi.
    apply IH; [lia|exact Hrow'|exact (span_proc t rows base n A HA _ _ _ _ _ _ _ _ _ Hi Hc HS H3 En HAt Hel)| |].
    + destruct H3 as [_ _ _ _ _ _ _ _ -> _ _]. apply (count_next t rows base n A HA i c i c el); try assumption; [apply HS0; exact HAt|lia].
    + exact (finv_proc i c r r1 el e ya Hi Hc Hya HF H3 HAt Hel).
Qed.

(** ** A row *)
Variable m : nat.
(** The rectangle of the cell at a position, in a run of [m] rows. *)
Definition rect (ic : nat * nat) (f : fill) : Prop :=
  let '(i, c) := ic in exists el, at_pos i c = Some el /\ paint i c el = Some (f_color f) /\
  (f_x f == x + sum_widths t 0 c * width)%Q /\ (f_w f == sum_widths t c (c + colspan_of t el) * width)%Q /\
  (f_y f == Y (Nat.min (S (reach i el)) m))%Q /\ (f_h f == Y i - Y (Nat.min (S (reach i el)) m))%Q.
Definition dinv (D : nat -> nat -> Prop) r : Prop :=
  exists done, NoDup done /\ Forall2 rect done (r_fills r) /\ forall i c, In (i, c) done <-> D i c.
(** The cells whose last row is before [i]; the cells that begin before it. *)
Definition over (i i0 c : nat) : Prop := A i0 c = true /\ c < t_cols t /\ exists el, at_pos i0 c = Some el /\ paint i0 c el <> None /\ reach i0 el < i.
Definition begun (i i0 c : nat) : Prop := A i0 c = true /\ c < t_cols t /\ i0 < i /\ exists el, at_pos i0 c = Some el /\ paint i0 c el <> None.

Definition kept (go : bool) (kv : nat * fill) : bool := (f_later (snd kv) && go)%bool.
Definition taller (h : Q) (kv : nat * fill) : nat * fill :=
  (fst kv, mkFill (f_x (snd kv)) (f_y (snd kv)) (f_w (snd kv)) (f_h (snd kv) + h)%Q (f_color (snd kv)) (f_later (snd kv))).
Definition closed (h : Q) (f : fill) : fill := mkFill (f_x f) (f_y f - (f_h f + h))%Q (f_w f) (f_h f + h)%Q (f_color f) (f_later f).
Lemma flush_ok h go mem : flush_fills h go mem = (map (taller h) (filter (kept go) mem), map (fun kv => closed h (snd kv)) (filter (fun kv => negb (kept go kv)) mem)).
Proof.
  induction mem as [|[k f] mem IH]; cbn [flush_fills filter]; [reflexivity|]. rewrite IH. destruct f as [fx fy fw fh fc fl].
  destruct fl, go; reflexivity.
Qed.
Lemma filter_keys {V} (p : nat * V -> bool) d : NoDup (map fst d) -> NoDup (map fst (filter p d)).
Proof.
  induction d as [|a d IH]; cbn [map filter]; intros H; [constructor|]. inversion H as [|? ? H1 H2]; subst. destruct (p a); cbn [map]; [|auto].
  constructor; [|auto]. intros K. apply H1. apply in_map_iff in K as (b & <- & K). apply filter_In in K as [K _]. now apply in_map.
Qed.
Lemma taller_keys h d : map fst (map (taller h) d) = map fst d.
Proof. rewrite map_map. reflexivity. Qed.
Lemma choose {V} (R : nat -> nat -> V -> Prop) (L : list (nat * V)) : (forall c f, In (c, f) L -> exists i0, R i0 c f) ->
  exists ics, Forall2 (fun ic cf => snd ic = fst cf /\ R (fst ic) (fst cf) (snd cf)) ics L.
Proof.
  induction L as [|[c f] L IH]; intros H; [exists []; constructor|]. destruct (H c f (or_introl eq_refl)) as (i0 & K).
  destruct IH as (ics & K2); [intros; apply H; now right|]. exists ((i0, c) :: ics). constructor; auto.
Qed.
Lemma row_fills i r rr go r1 : i < n -> i < m -> (go = false -> S i = m) -> row_ok r rr go r1 -> rr_index rr = base + i -> (rr_del rr = true -> i = 0) -> nth_error rows i = Some (rr_row rr) ->
  (y - r_height r == Y i)%Q -> (Y (S i) == Y i - rr_height rr)%Q -> span_inv i 0 r -> finv i 0 r -> dinv (over i) r ->
  (y - r_height r1 == Y (S i))%Q /\ (if go then finv (S i) 0 r1 /\ dinv (over (S i)) r1 else dinv (begun m) r1).
Proof.
  intros Hi Him Hgo Hok Hidx Hdel Hrow HY HYS HS HF (done & D1 & D2 & D3). pose proof (row_ok_height _ _ _ _ _ _ _ _ _ _ _ Hok) as Hh.
  destruct Hok as [Hlen (r2 & Hs & Eh & _ & _ & _ & _ & _ & _ & Hfm & Hfl & _)]. split; [rewrite Hh; lra|].
  rewrite Hidx in Hs. rewrite flush_ok in Hfm, Hfl. cbn [fst snd] in Hfm, Hfl. rewrite <- Eh in Hfm, Hfl. set (h := rr_height rr) in *.
  destruct (scan_fills i (rr_first rr) (rr_del rr) _ _ Hi Hdel HY _ _ _ _ _ Hs) as [HF2 Hfi].
  - cbn; lia.
  - intros j. unfold TableSpan.at_pos. rewrite Hrow. reflexivity.
  - exact HS.
  - split; [cbn; lia|]. intros _ i0 c0 _ L. lia.
  - destruct HF as [K1 K2 K3]. constructor; assumption.
  - cbn [reset r_fills] in Hfi.
    assert (Hin : forall c f, In (c, f) (r_fmem r2) -> c < t_cols t /\ exists i0 el, open_fill (S i) i c el i0 /\ fill_ok i0 c i (i <? reach i0 el) el f).
    { intros c f Hcf. destruct (fi_some _ _ _ HF2 c f (nget_some _ _ _ (fi_keys _ _ _ HF2) Hcf)) as (Hc & i0 & el & K1 & K2).
      unfold later_of in K2. rewrite (proj2 (Nat.ltb_lt c (t_cols t)) Hc) in K1, K2. eauto. }
    assert (Hall : forall c i0 el, c < t_cols t -> open_fill (S i) i c el i0 -> exists f, In (c, f) (r_fmem r2) /\ fill_ok i0 c i (i <? reach i0 el) el f).
    { intros c i0 el Hc Hop. destruct (fi_all _ _ _ HF2 c i0 el Hc) as (f & K); [rewrite (proj2 (Nat.ltb_lt c (t_cols t)) Hc); exact Hop|].
      exists f. apply nget_in in K. split; [exact K|]. destruct (Hin c f K) as (_ & i1 & el1 & O & K2). 
      destruct O as (O1 & O2 & O3 & O4 & O5), Hop as (P1 & P2 & P3 & P4 & P5).
      destruct (unique t rows base n A HA i c i0 c i1 c Hi Hc P2 O2) as [-> _]; [apply (reach_covers _ _ _ el); auto; lia|apply (reach_covers _ _ _ el1); auto; lia|].
      assert (el1 = el) by congruence. subst. exact K2. }
    set (L := filter (fun kv => negb (kept go kv)) (r_fmem r2)) in *.
    destruct (choose (fun i0 c f => c < t_cols t /\ exists el, open_fill (S i) i c el i0 /\ fill_ok i0 c i (i <? reach i0 el) el f) L) as (ics & Hics).
    { intros c f Hcf. apply filter_In in Hcf as [Hcf _]. destruct (Hin c f Hcf) as (Hc & i0 & el & K). eauto. }
    assert (Hmap : map snd ics = map fst L) by (clear -Hics; induction Hics as [|[i0 c] [c' f] ics L [K _] _ IH]; cbn in *; congruence).
    assert (HnL : NoDup (map fst L)) by (apply filter_keys, HF2).
    assert (Hnics : NoDup ics) by (apply (NoDup_map_inv snd); rewrite Hmap; exact HnL).
    assert (Hmin : forall i0 el c f, In (c, f) L -> fill_ok i0 c i (i <? reach i0 el) el f -> i <= reach i0 el -> Nat.min (S (reach i0 el)) m = S i).
    { intros i0 el c f Hcf (_ & _ & K & _) Hr. apply filter_In in Hcf as [_ Hk]. unfold kept in Hk. cbn [snd] in Hk. rewrite K in Hk.
      destruct go; [|specialize (Hgo eq_refl); lia]. destruct (i <? reach i0 el) eqn:Er; [discriminate|]. apply Nat.ltb_ge in Er. lia. }
    assert (Hrect : Forall2 rect ics (map (fun kv => closed h (snd kv)) L)).
    { clear -Hics Hmin HYS. revert Hmin. induction Hics as [|[i0 c] [c' f] ics L [K1 K2] _ IH]; intros Hmin; cbn [map]; constructor; [|apply IH; intros; eapply Hmin; [right|..]; eassumption].
      cbn [fst snd] in *. subst c'. destruct K2 as (Hc & el & (O1 & O2 & O3 & O4 & O5) & K). pose proof (Hmin i0 el c f (or_introl eq_refl) K O5) as Em.
      destruct K as (Q1 & Q2 & Q3 & Q4 & Q5 & Q6 & Q7). exists el. unfold closed; cbn [f_color f_x f_y f_w f_h]. rewrite Em. split; [exact O3|]. split; [exact Q2|]. split; [exact Q4|]. split; [exact Q6|]. split; lra. }
    assert (Hmem : forall i0 c, In (i0, c) ics <-> c < t_cols t /\ exists el, open_fill (S i) i c el i0 /\ (go = true -> reach i0 el = i)).
    { intros i0 c. split.
      - intros Hic. assert (Hx : exists f, In (c, f) L /\ c < t_cols t /\ exists el, open_fill (S i) i c el i0 /\ fill_ok i0 c i (i <? reach i0 el) el f).
        { clear -Hics Hic. induction Hics as [|[i1 c1] [c' f] ics L [K1 K2] _ IH]; [destruct Hic|]. cbn [fst snd] in *. destruct Hic as [[= -> ->]|Hic].
          - subst c'. exists f. split; [now left|exact K2].
          - destruct (IH Hic) as (f' & K & K'). exists f'. split; [now right|exact K']. }
        destruct Hx as (f & Hf & Hc & el & Hop & Hfo). split; [exact Hc|]. exists el. split; [exact Hop|]. intros ->. destruct Hop as (O1 & O2 & O3 & O4 & O5).
        pose proof (Hmin i0 el c f Hf Hfo O5). apply filter_In in Hf as [_ Hk]. unfold kept in Hk. cbn [snd] in Hk. destruct Hfo as (_ & _ & K & _). rewrite K in Hk.
        destruct (i <? reach i0 el) eqn:Er; [discriminate|]. apply Nat.ltb_ge in Er. lia.
      - intros (Hc & el & Hop & Hre). destruct (Hall c i0 el Hc Hop) as (f & Hf & Hfo).
        assert (HfL : In (c, f) L).
        { apply filter_In. split; [exact Hf|]. unfold kept. cbn [snd]. destruct Hfo as (_ & _ & K & _). rewrite K. destruct go; [|now rewrite andb_false_r].
          rewrite (Hre eq_refl), Nat.ltb_irrefl. reflexivity. }
        assert (Hx : exists i1, In (i1, c) ics /\ exists el, open_fill (S i) i c el i1).
        { clear -Hics HfL. induction Hics as [|[i1 c1] [c' f'] ics L [K1 K2] _ IH]; [destruct HfL|]. cbn [fst snd] in *. destruct HfL as [[= -> ->]|HfL].
          - subst c1. exists i1. split; [now left|]. destruct K2 as (_ & el & K & _). eauto.
          - destruct (IH HfL) as (i2 & K & K'). exists i2. split; [now right|exact K']. }
        destruct Hx as (i1 & Hi1 & el1 & O1 & O2 & O3 & O4 & O5). destruct Hop as (P1 & P2 & P3 & P4 & P5).
        destruct (unique t rows base n A HA i c i0 c i1 c Hi Hc P2 O2) as [-> _]; [apply (reach_covers _ _ _ el); auto; lia|apply (reach_covers _ _ _ el1); auto; lia|exact Hi1]. }
    assert (HD : NoDup (done ++ ics) /\ Forall2 rect (done ++ ics) (r_fills r1)).
    { split; [|rewrite Hfl, Hfi; apply Forall2_app; assumption]. clear -D1 D3 Hnics Hmem.
      assert (Hdis : forall ic, In ic done -> In ic ics -> False).
      { intros [i0 c] K1 K2. apply D3 in K1 as (_ & _ & el & P1 & _ & P2). apply Hmem in K2 as (_ & el' & (_ & _ & O3 & _ & O5) & _). assert (el' = el) by congruence. subst. lia. }
      clear Hmem D3. induction done as [|ic done IH]; cbn [app]; [exact Hnics|]. inversion D1 as [|? ? N1 N2]; subst. constructor; [|apply IH; [exact N2|intros ic' K; apply Hdis; now right]].
      intros K. apply in_app_or in K as [K|K]; [contradiction|]. exact (Hdis ic (or_introl eq_refl) K). }
    destruct HD as [HD1 HD2]. destruct go.
    + split; [constructor|].
      * rewrite Hfm, taller_keys. apply filter_keys, HF2.
      * intros c f Hcf. change (c <? 0) with false. cbn beta iota. rewrite Hfm in Hcf. apply nget_in in Hcf. apply in_map_iff in Hcf as ([c' f'] & Ef & Hcf). apply filter_In in Hcf as [Hcf Hk].
        unfold taller in Ef. cbn [fst snd] in Ef. injection Ef as <- <-. destruct (Hin c' f' Hcf) as (Hc & i0 & el & Hop & Hfo). split; [exact Hc|].
        unfold kept in Hk. cbn [snd] in Hk. rewrite andb_true_r in Hk. destruct Hfo as (Q1 & Q2 & Q3 & Q4 & Q5 & Q6 & Q7). rewrite Hk in Q3. symmetry in Q3. apply Nat.ltb_lt in Q3.
        exists i0, el. split; [destruct Hop as (O1 & O2 & O3 & O4 & O5); split; [lia|]; split; [exact O2|]; split; [exact O3|]; split; [exact O4|lia]|].
        unfold later_of. change (c' <? 0) with false. cbn beta iota. unfold fill_ok. cbn [f_color f_later f_x f_y f_w f_h]. do 2 (split; [assumption|]). split; [exact Hk|]. do 3 (split; [assumption|]). lra.
      * intros c i0 el Hc. change (c <? 0) with false. cbn beta iota. intros (O1 & O2 & O3 & O4 & O5).
        destruct (Hall c i0 el Hc) as (f & Hf & Hfo); [split; [lia|]; split; [exact O2|]; split; [exact O3|]; split; [exact O4|lia]|].
        rewrite Hfm. exists (snd (taller h (c, f))). apply nget_some; [rewrite taller_keys; apply filter_keys, HF2|].
        apply in_map_iff. exists (c, f). split; [reflexivity|]. apply filter_In. split; [exact Hf|]. unfold kept. cbn [snd]. destruct Hfo as (_ & _ & K & _). rewrite K, andb_true_r. apply Nat.ltb_lt. lia.
      * exists (done ++ ics). split; [exact HD1|]. split; [exact HD2|]. intros i0 c. rewrite in_app_iff, D3, Hmem. unfold over. split.
        -- intros [(K1 & K2 & el & K3 & K4 & K5)|(K1 & el & (O1 & O2 & O3 & O4 & O5) & K2)]; (split; [assumption|]; split; [assumption|]; exists el).
           ++ split; [exact K3|]. split; [exact K4|lia].
           ++ specialize (K2 eq_refl). split; [exact O3|]. split; [exact O4|lia].
        -- intros (K1 & K2 & el & K3 & K4 & K5). destruct (Nat.eq_dec (reach i0 el) i) as [Er|Er].
           ++ right. split; [exact K2|]. exists el. split; [|intros _; exact Er]. split; [unfold reach in Er; lia|]. split; [exact K1|]. split; [exact K3|]. split; [exact K4|lia].
           ++ left. split; [exact K1|]. split; [exact K2|]. exists el. split; [exact K3|]. split; [exact K4|lia].
    + specialize (Hgo eq_refl). exists (done ++ ics). split; [exact HD1|]. split; [exact HD2|]. intros i0 c. rewrite in_app_iff, D3, Hmem. unfold over, begun. split.
      * intros [(K1 & K2 & el & K3 & K4 & K5)|(K1 & el & (O1 & O2 & O3 & O4 & O5) & K2)]; (split; [assumption|]; split; [assumption|]).
        -- split; [unfold reach in K5; lia|]. eauto.
        -- split; [lia|]. eauto.
      * intros (K1 & K2 & K3 & el & K4 & K5). destruct (le_lt_dec i (reach i0 el)) as [Er|Er].
        -- right. split; [exact K2|]. exists el. split; [|discriminate]. split; [lia|]. auto.
        -- left. split; [exact K1|]. split; [exact K2|]. eauto.
Qed.
Lemma can_go_row r rr go r1 : row_ok r rr go r1 -> go = can_go t r1.
Proof. intros [_ (r2 & _ & _ & -> & _ & _ & E1 & E2 & _)]. unfold can_go. rewrite E1, E2. reflexivity. Qed.
Lemma trace_fills : forall recs i r r', trace r recs r' -> recs <> [] -> i + List.length recs <= n -> i + List.length recs = m -> map (@rr_index E W P F) recs = seq (base + i) (List.length recs) ->
  (forall j rr, nth_error recs j = Some rr -> rr_del rr = true -> i + j = 0) ->
  (forall j rr, nth_error recs j = Some rr -> nth_error rows (i + j) = Some (rr_row rr)) ->
  (y - r_height r == Y i)%Q -> (forall j rr, nth_error recs j = Some rr -> Y (S (i + j)) == Y (i + j)%nat - rr_height rr)%Q ->
  span_inv i 0 r -> finv i 0 r -> dinv (over i) r -> if can_go t r' then dinv (over m) r' else dinv (begun m) r'.
Proof.
  intros recs i r r' H. revert i. induction H as [r|r rr go r1 H|r rr r1 recs r2 H H2 IH]; intros i Hne Hn Hm Hidx Hdel Hrow HY HYS HS HF HD; [congruence| |].
  - cbn [List.length map seq] in *. injection Hidx as Hidx. pose proof (can_go_row _ _ _ _ H) as Hg. rewrite <- Hg.
    destruct (row_fills i r rr go r1) as [_ K]; try assumption; try lia.
    + intros K. specialize (Hdel 0 rr eq_refl K). lia.
    + specialize (Hrow 0 rr eq_refl). rewrite Nat.add_0_r in Hrow. exact Hrow.
    + specialize (HYS 0 rr eq_refl). rewrite Nat.add_0_r in HYS. exact HYS.
    + destruct go; [|exact K]. replace m with (S i) by lia. apply K.
  - cbn [List.length map seq] in Hn, Hm, Hidx. injection Hidx as Hidx Hidx2. pose proof (can_go_row _ _ _ _ H) as Hg.
    assert (Hdel0 : rr_del rr = true -> i = 0) by (intros K; specialize (Hdel 0 rr eq_refl K); lia).
    assert (Hrow0 : nth_error rows i = Some (rr_row rr)) by (specialize (Hrow 0 rr eq_refl); rewrite Nat.add_0_r in Hrow; exact Hrow).
    assert (HYS0 : (Y (S i) == Y i - rr_height rr)%Q) by (specialize (HYS 0 rr eq_refl); rewrite Nat.add_0_r in HYS; exact HYS).
    destruct (row_fills i r rr true r1) as [K1 [K2 K3]]; try assumption; try lia.
    destruct recs as [|rr1 recs]; [inversion H2; subst; rewrite <- Hg; replace m with (S i) by (cbn in Hm; lia); exact K3|].
    apply (IH (S i)); try assumption; [discriminate|lia|lia|rewrite Hidx2; f_equal; lia| | | |].
    + intros j rr0 Hj K. specialize (Hdel (S j) rr0 Hj K). lia.
    + intros j rr0 Hj. specialize (Hrow (S j) rr0 Hj). rewrite <- Hrow. f_equal. lia.
    + intros j rr0 Hj. specialize (HYS (S j) rr0 Hj). rewrite Nat.add_succ_r in HYS. exact HYS.
    + apply (row_positions start crun t rows base n A HA x y width height i r rr true r1); try assumption. lia.
Qed.
Lemma finv_empty r : r_fmem r = [] -> finv 0 0 r.
Proof.
  intros H. constructor; rewrite H; [constructor|discriminate|]. intros c i0 el _. change (c <? 0) with false. cbn beta iota. intros (K & _). lia.
Qed.
Lemma dinv_empty r : r_fills r = [] -> dinv (over 0) r.
Proof. intros H. exists []. rewrite H. split; [constructor|]. split; [constructor|]. intros i c. split; [intros []|intros (_ & _ & el & _ & _ & K); lia]. Qed.
End Fills.
