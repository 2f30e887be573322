(** Which cells of a table are processed: those that no span covers. *)
From Coq Require Import QArith ZArith Lia.
From Verif Require Import Py Table TableProofs TableGeom.
Open Scope list_scope.
Open Scope nat_scope.

Section Span.
Context {E W P F B : Type}.
Variable start : E -> res W.
Variable crun : W -> Q -> Q -> Q -> Q -> res (W * Q * bool * list P).
Variable b_eqb : B -> B -> bool.
Variable t : @table E F B.
Notation rstate := (@rstate E W P F B).
Notation incell := (@incell E W F).
Notation event := (@event E W P F).
Notation rowrec := (@rowrec E W P F).
Implicit Types (r : rstate) (e : event) (el : incell).

(** ** Specification *)

(** Rows of cells, the number of the first in the table. *)
Variable rows : list (list incell).
Variable base : nat.
Definition at_pos (i c : nat) : option incell := match nth_error rows i with Some row => nth_error row c | None => None end.
(** The rows and columns that a cell takes: row [i0] and those left, columns
    from [c0]. *)
Definition covers (i0 c0 i c : nat) : Prop :=
  exists el, at_pos i0 c0 = Some el /\ i0 <= i /\ (Z.of_nat i <= Z.of_nat i0 + Z.max 0 (rows_left t (base + i0) el))%Z /\
    c0 <= c < c0 + colspan_of t el.
(** The cells at the positions in [A] cover the first [n] rows, and no two
    cover the same place. *)
Definition tiling (n : nat) (A : nat -> nat -> bool) : Prop :=
  (forall i c, A i c = true -> covers i c i c) /\
  forall i c, i < n -> c < t_cols t -> exists i0 c0, A i0 c0 = true /\ covers i0 c0 i c /\
    forall i1 c1, A i1 c1 = true -> covers i1 c1 i c -> i1 = i0 /\ c1 = c0.

(** ** Proofs *)
Variable n : nat.
Variable A : nat -> nat -> bool.
Hypothesis HA : tiling n A.
Variable x y width height : Q.
Notation scan := (scan start crun t x width).
Notation row_ok := (row_ok start crun t x y width height).
Notation trace := (trace start crun t x y width height).

(** What the memory of column [c] says before row [i]. *)
Definition remembers (i c : nat) (k w : Z) : Prop :=
  exists i0 el, i0 < i /\ A i0 c = true /\ at_pos i0 c = Some el /\
    (rows_left t (base + i0) el = k + Z.of_nat (i - 1 - i0))%Z /\ (0 < k)%Z /\ w = (Z.of_nat (colspan_of t el) - 1)%Z.
Definition span_inv (i c : nat) r : Prop :=
  forall c' k w, nget c' (r_span r) = Some (k, w) <-> c' < t_cols t /\ remembers (if c' <? c then S i else i) c' k w.
Definition count_inv (i c : nat) (v : Z) : Prop :=
  ((0 < v)%Z -> exists i0 c0, A i0 c0 = true /\ c0 < c /\ exists el, at_pos i0 c0 = Some el /\ i0 <= i /\
     (Z.of_nat i <= Z.of_nat i0 + Z.max 0 (rows_left t (base + i0) el))%Z /\ Z.of_nat (c0 + colspan_of t el) = (Z.of_nat c + v)%Z) /\
  ((v <= 0)%Z -> forall i0 c0, A i0 c0 = true -> c0 < c -> ~ covers i0 c0 i c).
Lemma unique i c i1 c1 i2 c2 : i < n -> c < t_cols t -> A i1 c1 = true -> A i2 c2 = true -> covers i1 c1 i c -> covers i2 c2 i c -> i1 = i2 /\ c1 = c2.
Proof.
  intros Hi Hc H1 H2 K1 K2. destruct HA as [_ HT]. destruct (HT i c Hi Hc) as (i0 & c0 & _ & _ & HU).
  destruct (HU _ _ H1 K1), (HU _ _ H2 K2). split; congruence.
Qed.
Lemma remembers_covers i c k w : remembers i c k w -> exists i0 el, i0 < i /\ A i0 c = true /\ covers i0 c i c /\ at_pos i0 c = Some el /\
  w = (Z.of_nat (colspan_of t el) - 1)%Z /\ (rows_left t (base + i0) el = k + Z.of_nat (i - 1 - i0))%Z.
Proof.
  intros (i0 & el & H1 & H2 & H3 & H4 & H5 & H6). exists i0, el. repeat (split; [assumption|]). split; [|auto].
  destruct HA as [HS _]. destruct (HS i0 c H2) as (el' & E1 & _ & _ & E4). assert (el' = el) by congruence. subst el'.
  exists el. split; [exact H3|]. split; [lia|]. split; [lia|exact E4].
Qed.
Lemma covers_remembers i i0 c : i0 < i -> A i0 c = true -> covers i0 c i c -> exists k w, remembers i c k w.
Proof.
  intros Hi HA0 (el & E1 & E2 & E3 & E4). exists (rows_left t (base + i0) el - Z.of_nat (i - 1 - i0))%Z, (Z.of_nat (colspan_of t el) - 1)%Z.
  exists i0, el. repeat (split; [assumption|]). split; [lia|]. split; [lia|reflexivity].
Qed.
Lemma covers_left i0 c0 i c : covers i0 c0 i (S c) -> c0 <= c -> covers i0 c0 i c.
Proof. intros (el & E1 & E2 & E3 & E4) H. exists el. repeat (split; [assumption|]). lia. Qed.
(** After a cell that covers (i, c). *)
Lemma count_next i c i0 c0 el v : i < n -> c < t_cols t -> A i0 c0 = true -> at_pos i0 c0 = Some el -> covers i0 c0 i c ->
  (Z.of_nat (c0 + colspan_of t el) = Z.of_nat (S c) + v)%Z -> count_inv i (S c) v.
Proof.
  intros Hi Hc HA0 Hel Hcov Hv. split.
  - intros Hp. exists i0, c0. split; [exact HA0|]. destruct Hcov as (el' & E1 & E2 & E3 & E4). assert (el' = el) by congruence. subst el'.
    split; [lia|]. exists el. auto.
  - intros Hp i1 c1 HA1 Hc1 Hcov1. pose proof (covers_left _ _ _ _ Hcov1 ltac:(lia)) as Hcov2.
    destruct (unique i c i0 c0 i1 c1 Hi Hc HA0 HA1 Hcov Hcov2) as [-> ->].
    destruct Hcov1 as (el' & E1 & E2 & E3 & E4). assert (el' = el) by congruence. subst el'. lia.
Qed.

Lemma span_ltb c c' : (c' <? S c) = (if c' =? c then true else c' <? c).
Proof. destruct (c' =? c) eqn:E1; [apply Nat.eqb_eq in E1; apply Nat.ltb_lt; lia|]. apply Nat.eqb_neq in E1.
  destruct (c' <? c) eqn:E2; [apply Nat.ltb_lt in E2; apply Nat.ltb_lt; lia|apply Nat.ltb_ge in E2; apply Nat.ltb_ge; lia]. Qed.

Lemma remembers_det i c k w k' w' : i < n -> c < t_cols t -> remembers i c k w -> remembers i c k' w' -> k = k' /\ w = w'.
Proof.
  intros Hi Hc H1 H2. destruct (remembers_covers _ _ _ _ H1) as (i1 & el1 & L1 & A1 & C1 & P1 & W1 & K1).
  destruct (remembers_covers _ _ _ _ H2) as (i2 & el2 & L2 & A2 & C2 & P2 & W2 & K2).
  destruct (unique i c i1 c i2 c Hi Hc A1 A2 C1 C2) as [-> _]. assert (el1 = el2) by congruence. subst el2. split; [lia|congruence].
Qed.
(** A column that is skipped because of a row span. *)
Lemma span_skip_row i c r r' k w : i < n -> c < t_cols t -> span_inv i c r -> skipped r r' c -> nget c (r_span r) = Some (k, w) -> span_inv i (S c) r'.
Proof.
  intros Hi Hc HI [_ _ _ _ _ Hs _ _ _ _ _] Hn. assert (HR : remembers i c k w).
  { apply HI in Hn as [_ Hn]. rewrite (proj2 (Nat.ltb_ge c c) (le_n c)) in Hn. exact Hn. }
  unfold span_inv. rewrite Hs. unfold span_after. rewrite Hn. intros c' k' w'. rewrite span_ltb.
  destruct (Nat.eq_dec c' c) as [->|Hne].
  - rewrite Nat.eqb_refl. destruct (k - 1 =? 0)%Z eqn:Ek.
    + rewrite nget_npop_same. split; [discriminate|]. intros [_ (i0 & el & L0 & A0 & P0 & R0 & K0 & W0)]. exfalso. apply Z.eqb_eq in Ek.
      destruct HR as (i1 & el1 & L1 & A1 & P1 & R1 & K1 & W1).
      destruct (Nat.eq_dec i0 i) as [->|Hi0].
      * assert (C0 : covers i c i c) by (apply HA; exact A0).
        assert (C1 : covers i1 c i c). { exists el1. split; [exact P1|]. split; [lia|]. split; [lia|]. destruct (proj1 HA i1 c A1) as (e' & Q1 & _ & _ & Q4). assert (e' = el1) by congruence. subst. exact Q4. }
        destruct (unique i c i c i1 c Hi Hc A0 A1 C0 C1). lia.
      * assert (C0 : covers i0 c i c). { exists el. split; [exact P0|]. split; [lia|]. split; [lia|]. destruct (proj1 HA i0 c A0) as (e' & Q1 & _ & _ & Q4). assert (e' = el) by congruence. subst. exact Q4. }
        assert (C1 : covers i1 c i c). { exists el1. split; [exact P1|]. split; [lia|]. split; [lia|]. destruct (proj1 HA i1 c A1) as (e' & Q1 & _ & _ & Q4). assert (e' = el1) by congruence. subst. exact Q4. }
        destruct (unique i c i0 c i1 c Hi Hc A0 A1 C0 C1) as [-> _]. assert (el = el1) by congruence. subst el1. lia.
    + rewrite nget_nset_same. apply Z.eqb_neq in Ek. destruct HR as (i1 & el1 & L1 & A1 & P1 & R1 & K1 & W1). split.
      * intros [= <- <-]. split; [exact Hc|]. exists i1, el1. split; [lia|]. repeat (split; [assumption|]). split; [lia|]. split; [lia|exact W1].
      * intros [_ (i0 & el & L0 & A0 & P0 & R0 & K0 & W0)].
        assert (C1 : covers i1 c i c). { exists el1. split; [exact P1|]. split; [lia|]. split; [lia|]. destruct (proj1 HA i1 c A1) as (e' & Q1 & _ & _ & Q4). assert (e' = el1) by congruence. subst. exact Q4. }
        destruct (Nat.eq_dec i0 i) as [->|Hi0].
        -- destruct (unique i c i c i1 c Hi Hc A0 A1 (proj1 HA i c A0) C1). lia.
        -- assert (C0 : covers i0 c i c). { exists el. split; [exact P0|]. split; [lia|]. split; [lia|]. destruct (proj1 HA i0 c A0) as (e' & Q1 & _ & _ & Q4). assert (e' = el) by congruence. subst. exact Q4. }
           destruct (unique i c i0 c i1 c Hi Hc A0 A1 C0 C1) as [-> _]. assert (el = el1) by congruence. subst el1. f_equal. f_equal; [lia|congruence].
  - replace (c' =? c) with false by (symmetry; apply Nat.eqb_neq; exact Hne).
    refine (iff_trans _ (HI c' k' w')). destruct (k - 1 =? 0)%Z; [rewrite nget_npop_other by exact Hne|rewrite nget_nset_other by exact Hne]; reflexivity.
Qed.
(** A column that is covered by a cell to the left. *)
Lemma span_skip_col i c r r' i0 c0 : i < n -> c < t_cols t -> span_inv i c r -> skipped r r' c -> nget c (r_span r) = None ->
  A i0 c0 = true -> c0 < c -> covers i0 c0 i c -> span_inv i (S c) r'.
Proof.
  intros Hi Hc HI [_ _ _ _ _ Hs _ _ _ _ _] Hn HA0 Hc0 Hcov. unfold span_inv. rewrite Hs. unfold span_after. rewrite Hn. intros c' k' w'. rewrite span_ltb.
  destruct (Nat.eq_dec c' c) as [->|Hne].
  - rewrite Nat.eqb_refl, Hn. split; [discriminate|]. intros [_ (i1 & el & L1 & A1 & P1 & R1 & K1 & W1)]. exfalso.
    assert (C1 : covers i1 c i c). { exists el. split; [exact P1|]. split; [lia|]. split; [lia|]. destruct (proj1 HA i1 c A1) as (e' & Q1 & _ & _ & Q4). assert (e' = el) by congruence. subst. exact Q4. }
    destruct (unique i c i0 c0 i1 c Hi Hc HA0 A1 Hcov C1). lia.
  - replace (c' =? c) with false by (symmetry; apply Nat.eqb_neq; exact Hne). apply HI.
Qed.
(** A column where a cell is processed. *)
Lemma span_proc i c r r' el e ya : i < n -> c < t_cols t -> span_inv i c r -> processed t x width (base + i) ya r r' c el e -> nget c (r_span r) = None ->
  A i c = true -> at_pos i c = Some el -> span_inv i (S c) r'.
Proof.
  intros Hi Hc HI [_ _ _ _ _ Hs _ _ _ _ _] Hn HA0 Hel. unfold span_inv. rewrite Hs. intros c' k' w'. rewrite span_ltb.
  destruct (Nat.eq_dec c' c) as [->|Hne].
  - rewrite Nat.eqb_refl. destruct (0 <? rows_left t (base + i) el)%Z eqn:El.
    + rewrite nget_nset_same. apply Z.ltb_lt in El. split.
      * intros [= <- <-]. split; [exact Hc|]. exists i, el. split; [lia|]. repeat (split; [assumption|]). split; [lia|]. split; [lia|reflexivity].
      * intros [_ (i1 & el1 & L1 & A1 & P1 & R1 & K1 & W1)].
        destruct (Nat.eq_dec i1 i) as [->|Hi1]; [assert (el1 = el) by congruence; subst el1; f_equal; f_equal; [lia|congruence]|exfalso].
        assert (C1 : covers i1 c i c). { exists el1. split; [exact P1|]. split; [lia|]. split; [lia|]. destruct (proj1 HA i1 c A1) as (e' & Q1 & _ & _ & Q4). assert (e' = el1) by congruence. subst. exact Q4. }
        destruct (unique i c i c i1 c Hi Hc HA0 A1 (proj1 HA i c HA0) C1). lia.
    + apply Z.ltb_ge in El. rewrite Hn. split; [discriminate|]. intros [_ (i1 & el1 & L1 & A1 & P1 & R1 & K1 & W1)]. exfalso.
      destruct (Nat.eq_dec i1 i) as [->|Hi1]; [assert (el1 = el) by congruence; subst el1; lia|].
      assert (C1 : covers i1 c i c). { exists el1. split; [exact P1|]. split; [lia|]. split; [lia|]. destruct (proj1 HA i1 c A1) as (e' & Q1 & _ & _ & Q4). assert (e' = el1) by congruence. subst. exact Q4. }
      destruct (unique i c i c i1 c Hi Hc HA0 A1 (proj1 HA i c HA0) C1). lia.
  - replace (c' =? c) with false by (symmetry; apply Nat.eqb_neq; exact Hne). refine (iff_trans _ (HI c' k' w')).
    destruct (0 <? rows_left t (base + i) el)%Z; [rewrite nget_nset_other by exact Hne|]; reflexivity.
Qed.

Lemma scan_tiling i first del ya rm : i < n -> (del = true -> i = 0) -> forall r c row r' evs, scan (base + i) first del ya rm r c row r' evs ->
  c + List.length row = t_cols t -> (forall j, nth_error row j = at_pos i (c + j)) -> span_inv i c r -> count_inv i c (r_colspan r) ->
  map (@e_col E W P F) evs = filter (A i) (seq c (List.length row)) /\ span_inv i (t_cols t) r'.
Proof.
  intros Hi Hdel r c row r' evs H. induction H as [r c|r c el row r1 r2 evs H1 H2 H3 IH|r c el row e r1 r2 evs H1 H2 H3 H4 IH]; intros Hlen Hrow HS HC.
  - cbn in *. replace (t_cols t) with c by lia. auto.
  - cbn [List.length] in *. assert (Hc : c < t_cols t) by lia.
    assert (Hrow' : forall j, nth_error row j = at_pos i (S c + j)) by (intros j; specialize (Hrow (S j)); cbn in Hrow; rewrite Hrow; f_equal; lia).
    destruct (HA) as [HS0 HT]. destruct (HT i c Hi Hc) as (i0 & c0 & A0 & C0 & _).
    assert (Hco : colspan_after r c = r_colspan r1) by (destruct H2; symmetry; assumption). cbn [seq filter].
    destruct (nget c (r_span r)) as [[k w]|] eqn:En.
    + assert (HR : remembers i c k w) by (apply HS in En as [_ En]; rewrite (proj2 (Nat.ltb_ge c c) (le_n c)) in En; exact En).
      destruct (remembers_covers _ _ _ _ HR) as (i1 & el1 & L1 & A1 & C1 & P1 & W1 & K1).
      assert (HAf : A i c = false).
      { destruct (A i c) eqn:Ea; [|reflexivity]. exfalso. destruct (unique i c i c i1 c Hi Hc Ea A1 (HS0 i c Ea) C1). lia. }
      rewrite HAf. apply IH; [lia|exact Hrow'|exact (span_skip_row _ _ _ _ _ _ Hi Hc HS H2 En)|].
      rewrite <- Hco. unfold colspan_after. rewrite En. apply (count_next i c i1 c el1); try assumption. lia.
    + unfold skips in H1. rewrite En in H1. apply Z.ltb_lt in H1. destruct HC as [HC _]. destruct (HC H1) as (i1 & c1 & A1 & L1 & el1 & P1 & Q1 & Q2 & Q3).
      assert (C1 : covers i1 c1 i c) by (exists el1; repeat (split; [assumption|]); lia).
      assert (HAf : A i c = false).
      { destruct (A i c) eqn:Ea; [|reflexivity]. exfalso. destruct (unique i c i c i1 c1 Hi Hc Ea A1 (HS0 i c Ea) C1). lia. }
      rewrite HAf. apply IH; [lia|exact Hrow'|exact (span_skip_col _ _ _ _ _ _ Hi Hc HS H2 En A1 L1 C1)|].
      rewrite <- Hco. unfold colspan_after. rewrite En. apply (count_next i c i1 c1 el1); try assumption. lia.
  - cbn [List.length] in *. assert (Hc : c < t_cols t) by lia.
    assert (Hrow' : forall j, nth_error row j = at_pos i (S c + j)) by (intros j; specialize (Hrow (S j)); cbn in Hrow; rewrite Hrow; f_equal; lia).
    assert (Hel : at_pos i c = Some el) by (specialize (Hrow 0); cbn in Hrow; rewrite Nat.add_0_r in Hrow; congruence).
    destruct HA as [HS0 HT]. destruct (HT i c Hi Hc) as (i0 & c0 & A0 & C0 & _).
    assert (En : nget c (r_span r) = None).
    { destruct (nget c (r_span r)) as [[k w]|] eqn:En; [|reflexivity]. exfalso. unfold skips in H1. rewrite En in H1. destruct del; [|discriminate].
      apply HS in En as [_ En]. rewrite (proj2 (Nat.ltb_ge c c) (le_n c)), (Hdel eq_refl) in En. destruct En as (i1 & ? & ? & _). lia. }
    unfold skips in H1. rewrite En in H1. apply Z.ltb_ge in H1. destruct HC as [_ HC].
    assert (HAt : A i c = true).
    { assert (Hc0 : c0 = c).
      { destruct (Nat.eq_dec c0 c) as [K|K]; [exact K|]. exfalso. assert (L : c0 < c) by (destruct C0 as (? & _ & _ & _ & ?); lia).
        exact (HC H1 i0 c0 A0 L C0). }
      subst c0. destruct (Nat.eq_dec i0 i) as [->|K]; [exact A0|]. exfalso.
      assert (L : i0 < i) by (destruct C0 as (? & _ & ? & _); lia).
      destruct (covers_remembers i i0 c L A0 C0) as (k & w & HR).
      assert (K2 : nget c (r_span r) = Some (k, w)) by (apply HS; rewrite (proj2 (Nat.ltb_ge c c) (le_n c)); auto). congruence. }
    cbn [seq filter map]. rewrite HAt.
    destruct IH as [IH1 IH2]; [lia|exact Hrow'|exact (span_proc _ _ _ _ _ _ _ Hi Hc HS H3 En HAt Hel)| |].
    { destruct H3 as [_ _ _ _ _ _ _ _ -> _ _]. apply (count_next i c i c el); try assumption; [apply HS0; exact HAt|lia]. }
    split; [|exact IH2]. rewrite IH1. f_equal. apply H2.
Qed.

(** The positions of the cells processed in the rows from [i]. *)
Definition positions (i k : nat) : list (nat * nat) :=
  flat_map (fun i => map (fun c => (base + i, c)) (filter (A i) (seq 0 (t_cols t)))) (seq i k).
Definition pos e : nat * nat := (e_row e, e_col e).
Lemma row_positions i r rr go r1 : i < n -> row_ok r rr go r1 -> rr_index rr = base + i -> (rr_del rr = true -> i = 0) ->
  nth_error rows i = Some (rr_row rr) -> span_inv i 0 r ->
  map pos (rr_evs rr) = map (fun c => (base + i, c)) (filter (A i) (seq 0 (t_cols t))) /\ span_inv (S i) 0 r1.
Proof.
  intros Hi [Hlen (r2 & Hs & _ & _ & _ & _ & _ & Hsp & _)] Hidx Hdel Hrow HI.
  rewrite Hidx in Hs. pose proof Hs as Hs0.
  eapply scan_tiling in Hs; [|exact Hi|exact Hdel|cbn; lia| |exact HI|].
  - destruct Hs as [H1 H2]. rewrite Hlen in H1. split.
    + rewrite <- H1, map_map. apply map_ext_in. intros e He. unfold pos. f_equal. apply (scan_in _ _ _ _ _ _ _ _ _ _ _ _ _ _ _ Hs0 e He).
    + intros c k w. rewrite Hsp. rewrite (H2 c k w). change (c <? 0) with false. destruct (c <? t_cols t) eqn:Ec; [reflexivity|]. apply Nat.ltb_ge in Ec. split; intros [? _]; lia.
  - intros j. unfold at_pos. rewrite Hrow. reflexivity.
  - split; [cbn; lia|]. intros _ i0 c0 _ L. lia.
Qed.
Lemma trace_positions : forall recs i r r', trace r recs r' -> i + List.length recs <= n -> map (@rr_index E W P F) recs = seq (base + i) (List.length recs) ->
  (forall j rr, nth_error recs j = Some rr -> rr_del rr = true -> i + j = 0) ->
  (forall j rr, nth_error recs j = Some rr -> nth_error rows (i + j) = Some (rr_row rr)) -> span_inv i 0 r ->
  map pos (flat_map (@rr_evs E W P F) recs) = positions i (List.length recs).
Proof.
  intros recs i r r' H. revert i. induction H as [r|r rr go r1 H|r rr r1 recs r2 H H2 IH]; intros i Hn Hidx Hdel Hrow HI.
  - reflexivity.
  - cbn in Hn, Hidx. unfold positions. cbn [List.length seq flat_map]. rewrite !app_nil_r. injection Hidx as Hidx.
    apply (row_positions i r rr go r1); try assumption; [lia| |].
    + intros K. specialize (Hdel 0 rr eq_refl K). lia.
    + specialize (Hrow 0 rr eq_refl). rewrite Nat.add_0_r in Hrow. exact Hrow.
  - cbn [List.length map seq] in Hn, Hidx. unfold positions. cbn [List.length seq flat_map]. rewrite map_app. injection Hidx as Hidx Hidx2.
    destruct (row_positions i r rr true r1) as [K1 K2]; try assumption; [lia| | |].
    + intros K. specialize (Hdel 0 rr eq_refl K). lia.
    + specialize (Hrow 0 rr eq_refl). rewrite Nat.add_0_r in Hrow. exact Hrow.
    + rewrite K1. f_equal. apply IH; [lia|rewrite Hidx2; f_equal; lia| | |exact K2].
      * intros j rr0 Hj K. specialize (Hdel (S j) rr0 Hj K). lia.
      * intros j rr0 Hj. specialize (Hrow (S j) rr0 Hj). rewrite <- Hrow. f_equal. lia.
Qed.
Lemma span_inv_empty r : r_span r = [] -> span_inv 0 0 r.
Proof. intros H c k w. rewrite H. cbn. split; [discriminate|]. intros [_ (i0 & ? & L & _)]. destruct (c <? 0); lia. Qed.
End Span.
