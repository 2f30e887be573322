(** Where the cells of a table are, and how high its rows are. *)
From Coq Require Import QArith ZArith Lia Lqa.
From Verif Require Import Py Table TableProofs.
Open Scope list_scope.
Open Scope nat_scope.

Lemma qlt_true a b : qlt a b = true <-> (a < b)%Q.
Proof.
  unfold qlt. destruct (Qle_bool b a) eqn:K; cbn [negb].
  - apply Qle_bool_iff in K. split; [discriminate|lra].
  - split; [intros _|reflexivity]. apply Qnot_le_lt. intros L. apply Qle_bool_iff in L. congruence.
Qed.
Lemma qlt_false a b : qlt a b = false <-> (b <= a)%Q.
Proof.
  unfold qlt. destruct (Qle_bool b a) eqn:K; cbn [negb].
  - apply Qle_bool_iff in K. split; [intros _; exact K|reflexivity].
  - split; [discriminate|]. intros L. apply Qle_bool_iff in L. congruence.
Qed.
Lemma qsum_app a b : (qsum (a ++ b) == qsum a + qsum b)%Q.
Proof. induction a as [|x a IH]; cbn [qsum app]; [ring|]. rewrite IH. ring. Qed.
Lemma qsum_repeat q n : (qsum (repeat q n) == inject_Z (Z.of_nat n) * q)%Q.
Proof. induction n as [|n IH]; [cbn; ring|]. cbn [repeat qsum]. rewrite IH, Nat2Z.inj_succ, <- Z.add_1_r, inject_Z_plus. ring. Qed.
Lemma qsum_div l d : (~ d == 0)%Q -> (qsum (map (fun w => w / d)%Q l) == qsum l / d)%Q.
Proof. intros H. induction l as [|w l IH]; cbn [map qsum]; [field; exact H|]. rewrite IH. field. exact H. Qed.
Lemma nth_repeat_lt {A} (a d : A) n : forall i, i < n -> nth i (repeat a n) d = a.
Proof. induction n as [|n IH]; intros [|i] H; cbn; try lia; [reflexivity|apply IH; lia]. Qed.

(** The widths of the columns. *)
Theorem col_widths_ok cols given ws : col_widths cols given = Ok ws -> 0 < cols ->
  List.length ws = cols /\ (qsum ws == 1)%Q /\
  forall i, i < cols -> (nth i ws 0 == match given with Some g => nth i g 0 / qsum g | None => 1 / inject_Z (Z.of_nat cols) end)%Q.
Proof.
  intros H Hc. unfold col_widths in H. destruct given as [g|].
  - destruct (List.length g =? cols) eqn:El; [|discriminate]. apply Nat.eqb_eq in El. cbn [negb] in H.
    destruct (Qeq_bool (qsum g) 0) eqn:Es; [discriminate|]. injection H as <-. apply Qeq_bool_neq in Es.
    split; [now rewrite map_length|]. split; [rewrite qsum_div by exact Es; field; exact Es|].
    intros i Hi. rewrite (nth_indep _ 0%Q (0 / qsum g)%Q) by (rewrite map_length; lia). rewrite (map_nth (fun w => (w / qsum g)%Q)). reflexivity.
  - injection H as <-. split; [apply repeat_length|].
    assert (Hn : ~ (inject_Z (Z.of_nat cols) == 0)%Q) by (intros K; change 0%Q with (inject_Z 0) in K; rewrite inject_Z_injective in K; lia).
    split; [rewrite qsum_repeat; field; exact Hn|]. intros i Hi. rewrite nth_repeat_lt by exact Hi. reflexivity.
Qed.

Section Geom.
Context {E W P F B : Type}.
Variable start : E -> res W.
Variable crun : W -> Q -> Q -> Q -> Q -> res (W * Q * bool * list P).
Variable b_eqb : B -> B -> bool.
Variable t : @table E F B.
Variable x y width height : Q.
Notation rstate := (@rstate E W P F B).
Notation incell := (@incell E W F).
Notation event := (@event E W P F).
Notation scan := (scan start crun t x width).
Notation event_of := (event_of start crun t x width).
Notation row_ok := (row_ok start crun t x y width height).
Notation trace := (trace start crun t x y width height).
Implicit Types (r : rstate) (e : event) (el : incell).

Lemma scan_in index first del ya rm r col row r' evs : scan index first del ya rm r col row r' evs -> forall e, In e evs ->
  event_of index first ya rm (e_col e) (e_what e) e /\ col <= e_col e < col + List.length row /\ nth_error row (e_col e - col) = Some (e_what e).
Proof.
  induction 1 as [|r col el row r1 r2 evs H1 H2 H3 IH|r col el row e0 r1 r2 evs H1 H2 H3 H4 IH]; intros e He.
  - destruct He.
  - destruct (IH e He) as (K1 & K2 & K3). split; [exact K1|]. cbn [List.length]. split; [lia|].
    replace (e_col e - col) with (S (e_col e - S col)) by lia. exact K3.
  - destruct He as [->|He].
    + pose proof H2 as [E1 E2 E3 _ _ _ _ _ _ _]. rewrite E2, E3. split; [exact H2|]. cbn [List.length]. split; [lia|]. rewrite Nat.sub_diag. reflexivity.
    + destruct (IH e He) as (K1 & K2 & K3). split; [exact K1|]. cbn [List.length]. split; [lia|].
      replace (e_col e - col) with (S (e_col e - S col)) by lia. exact K3.
Qed.

(** The height of a row does not shrink while its cells are added. *)
Lemma skipped_max r r' col : skipped r r' col -> (r_max r <= r_max r')%Q.
Proof.
  intros [_ _ _ _ _ _ _ -> _ _ _]. unfold max_after. destruct (nget col (r_span r)) as [[rows cols]|]; [|lra].
  destruct (rows - 1 =? 0)%Z; [|lra]. cbv zeta. destruct (qlt (r_max r) _) eqn:K; [|lra]. apply qlt_true in K. lra.
Qed.
Lemma processed_max index ya r r' col el e : processed t x width index ya r r' col el e -> (r_max r <= r_max r')%Q /\
  ((rows_left t index el <= 0)%Z -> (e_need e <= r_max r')%Q).
Proof.
  intros [_ _ _ _ _ _ _ -> _ _ _]. cbv zeta. destruct (0 <? rows_left t index el)%Z eqn:Z; (destruct (qlt (r_max r) _) eqn:K; [apply qlt_true in K|apply qlt_false in K]);
    (split; [lra|]); intros HZ; try lra; apply Z.ltb_lt in Z; lia.
Qed.
Lemma scan_max index first del ya rm r col row r' evs : scan index first del ya rm r col row r' evs -> (r_max r <= r_max r')%Q /\
  forall e, In e evs -> (rows_left t index (e_what e) <= 0)%Z -> (e_need e <= r_max r')%Q.
Proof.
  induction 1 as [|r col el row r1 r2 evs H1 H2 H3 IH|r col el row e0 r1 r2 evs H1 H2 H3 H4 IH].
  - split; [lra|intros e []].
  - apply skipped_max in H2. destruct IH as [IH1 IH2]. split; [lra|exact IH2].
  - apply processed_max in H3 as [K1 K2]. destruct IH as [IH1 IH2]. split; [lra|]. intros e [->|He] Hr; [|now apply IH2].
    destruct H2 as [_ _ E3 _ _ _ _ _ _ _]. rewrite E3 in Hr. specialize (K2 Hr). lra.
Qed.

(** The memory of a row-spanning cell: the rows left and the height it still
    needs. *)
Definition mem (col : nat) r : option (Z * option Q) :=
  match nget col (r_span r) with Some (k, _) => Some (k, nget col (r_hmem r)) | None => None end.
Lemma skipped_mem r r' col c : skipped r r' col -> c <> col -> mem c r' = mem c r /\ nget c (r_hmem r') = nget c (r_hmem r).
Proof.
  intros [_ _ _ _ Hh Hs _ _ _ _ _] Hc. unfold mem. rewrite Hh, Hs. split; [|reflexivity]. unfold span_after.
  destruct (nget col (r_span r)) as [[rows cols]|]; [|reflexivity].
  destruct (rows - 1 =? 0)%Z; [rewrite nget_npop_other by exact Hc|rewrite nget_nset_other by exact Hc]; reflexivity.
Qed.
Lemma processed_mem index ya r r' col el e c : processed t x width index ya r r' col el e -> c <> col -> mem c r' = mem c r.
Proof.
  intros [_ _ _ _ Hh Hs _ _ _ _ _] Hc. unfold mem. rewrite Hh, Hs. destruct (0 <? rows_left t index el)%Z; [|reflexivity].
  rewrite !nget_nset_other by exact Hc. reflexivity.
Qed.
Lemma scan_mem_other index first del ya rm r col row r' evs : scan index first del ya rm r col row r' evs -> forall c, c < col -> mem c r' = mem c r.
Proof.
  induction 1 as [|r col el row r1 r2 evs H1 H2 H3 IH|r col el row e0 r1 r2 evs H1 H2 H3 H4 IH]; intros c Hc.
  - reflexivity.
  - rewrite IH by lia. now apply (skipped_mem _ _ _ c H2); lia.
  - rewrite IH by lia. apply (processed_mem _ _ _ _ _ _ _ c H3); lia.
Qed.
Lemma scan_mem index first ya rm r col row r' evs : scan index first false ya rm r col row r' evs -> forall c k h, col <= c < col + List.length row ->
  mem c r = Some (k, h) ->
  (forall e, In e evs -> e_col e <> c) /\
  if (k - 1 =? 0)%Z then (match h with Some q => q | None => 0%Q end <= r_max r')%Q /\ mem c r' = None else mem c r' = Some ((k - 1)%Z, h).
Proof.
  induction 1 as [|r col el row r1 r2 evs H1 H2 H3 IH|r col el row e0 r1 r2 evs H1 H2 H3 H4 IH]; intros c k h Hc Hm; cbn [List.length] in Hc.
  - lia.
  - destruct (Nat.eq_dec c col) as [->|Hne].
    + split; [intros e He; destruct (scan_in _ _ _ _ _ _ _ _ _ _ H3 e He) as (_ & K & _); lia|].
      rewrite (scan_mem_other _ _ _ _ _ _ _ _ _ _ H3 col) by lia. destruct H2 as [_ _ _ _ Hh Hs _ Hx _ _ _].
      unfold mem in Hm |- *. rewrite Hh, Hs. unfold span_after. unfold max_after in Hx. destruct (nget col (r_span r)) as [[k' w]|] eqn:En; [|discriminate].
      injection Hm as -> Hh'. destruct (k - 1 =? 0)%Z eqn:Ek.
      * rewrite nget_npop_same. split; [|reflexivity]. apply scan_max in H3 as [H3 _]. rewrite Hx, Hh' in H3. cbv zeta in H3. destruct (qlt (r_max r) _) eqn:K in H3; [|apply qlt_false in K]; lra.
      * rewrite nget_nset_same. now rewrite Hh'.
    + apply IH; [lia|]. destruct (skipped_mem _ _ _ c H2 Hne) as [-> _]. exact Hm.
  - destruct (Nat.eq_dec c col) as [->|Hne].
    + exfalso. unfold skips in H1. unfold mem in Hm. destruct (nget col (r_span r)); discriminate.
    + destruct (IH c k h) as [K1 K2]; [lia|rewrite (processed_mem _ _ _ _ _ _ _ c H3 Hne); exact Hm|].
      split; [|exact K2]. intros e [<-|He]; [destruct H2 as [_ -> _ _ _ _ _ _ _ _]; congruence|now apply K1].
Qed.
Lemma scan_begins index first del ya rm r col row r' evs : scan index first del ya rm r col row r' evs -> forall e, In e evs ->
  (0 < rows_left t index (e_what e))%Z -> mem (e_col e) r' = Some (rows_left t index (e_what e), Some (e_need e)).
Proof.
  induction 1 as [|r col el row r1 r2 evs H1 H2 H3 IH|r col el row e0 r1 r2 evs H1 H2 H3 H4 IH]; intros e He Hr.
  - destruct He.
  - now apply IH.
  - destruct He as [->|He]; [|now apply IH].
    assert (E2 : e_col e = col) by apply H2. assert (E3 : e_what e = el) by apply H2. rewrite E2, E3 in *.
    rewrite (scan_mem_other _ _ _ _ _ _ _ _ _ _ H4 col) by lia.
    destruct H3 as [_ _ _ _ Hh Hs _ _ _ _ _]. unfold mem. rewrite Hh, Hs. apply Z.ltb_lt in Hr. rewrite Hr. rewrite !nget_nset_same. reflexivity.
Qed.
Definition sub_opt (h : option Q) (q : Q) : option Q := match h with Some a => Some (a - q)%Q | None => None end.
Lemma nget_map_sub c q (d : ndict Q) : nget c (map (fun kv => (fst kv, (snd kv - q)%Q)) d) = sub_opt (nget c d) q.
Proof. induction d as [|[a b] d IH]; cbn [map nget fst snd]; [reflexivity|]. destruct (c =? a); [reflexivity|exact IH]. Qed.
Lemma row_mem r1 r' c : r_span r' = r_span r1 -> r_hmem r' = map (fun kv => (fst kv, (snd kv - r_max r1)%Q)) (r_hmem r1) ->
  mem c r' = match mem c r1 with Some (k, h) => Some (k, sub_opt h (r_max r1)) | None => None end.
Proof. intros H1 H2. unfold mem. rewrite H1, H2. destruct (nget c (r_span r1)) as [[k w]|]; [|reflexivity]. now rewrite nget_map_sub. Qed.

(** A cell with [k] rows left gets the height it needs in the next [k]. *)
Notation rowrec := (@rowrec E W P F).
Definition hs (recs : list rowrec) : list Q := map (@rr_height E W P F) recs.
Lemma trace_span : forall recs r r', trace r recs r' -> Forall (fun rr => rr_del rr = false) recs -> forall c k q, c < t_cols t ->
  mem c r = Some (Z.of_nat (S k), Some q) -> S k <= List.length recs -> (q <= qsum (hs (firstn (S k) recs)))%Q.
Proof.
  assert (Hrow : forall r rr go r1, row_ok r rr go r1 -> rr_del rr = false -> forall c k q, c < t_cols t -> mem c r = Some (Z.of_nat (S k), Some q) ->
    match k with O => (q <= rr_height rr)%Q | S _ => mem c r1 = Some (Z.of_nat k, Some (q - rr_height rr)%Q) end).
  { intros r rr go r1 [Hlen (r2 & Hs & Hh & _ & _ & _ & _ & Hsp & Hhm & _)] Hd c k q Hc Hm. rewrite Hd in Hs.
    assert (Hm' : mem c (reset r) = Some (Z.of_nat (S k), Some q)) by exact Hm.
    destruct (scan_mem _ _ _ _ _ _ _ _ _ Hs c _ _ ltac:(lia) Hm') as [_ K]. destruct k as [|k].
    - change (Z.of_nat 1 - 1 =? 0)%Z with true in K. destruct K as [K _]. cbn in K. rewrite Hh. exact K.
    - replace (Z.of_nat (S (S k)) - 1 =? 0)%Z with false in K by (symmetry; apply Z.eqb_neq; lia).
      rewrite (row_mem r2 r1 c Hsp Hhm), K. cbn [sub_opt]. rewrite Hh. do 2 f_equal. lia. }
  intros recs r r' H. induction H as [|r rr go r1 H|r rr r1 recs r2 H H2 IH]; intros Hd c k q Hc Hm Hk.
  - cbn in Hk; lia.
  - cbn in Hk. apply Forall_inv in Hd. assert (k = 0) by lia. subst k. pose proof (Hrow _ _ _ _ H Hd c _ _ Hc Hm) as K. cbn in K |- *. lra.
  - pose proof (Hrow _ _ _ _ H (Forall_inv Hd) c _ _ Hc Hm) as K. destruct k as [|k]; [cbn; lra|].
    apply (IH (Forall_inv_tail Hd)) in K; [|exact Hc|cbn in Hk; lia]. cbn [firstn hs map qsum] in *. unfold hs in K. lra.
Qed.

(** ** The rows of a run *)
Definition row_fits (y0 : Q) (rr : rowrec) (after : list rowrec) : Prop :=
  (0 <= rr_height rr)%Q /\ forall e, In e (rr_evs rr) ->
    event_of (rr_index rr) (rr_first rr) (y - y0)%Q (height - y0)%Q (e_col e) (e_what e) e /\
    ((rows_left t (rr_index rr) (e_what e) <= 0)%Z -> (e_need e <= rr_height rr)%Q) /\
    (forall k, rows_left t (rr_index rr) (e_what e) = Z.of_nat (S k) -> S k <= List.length after ->
       (e_need e <= rr_height rr + qsum (hs (firstn (S k) after)))%Q).
Lemma trace_heights : forall recs r r', trace r recs r' -> (r_height r' == r_height r + qsum (hs recs))%Q.
Proof.
  induction 1 as [|r rr go r1 H|r rr r1 recs r2 H H2 IH]; cbn [hs map qsum]; [lra| |].
  - destruct H as [_ (r2 & Hs & Hh & _ & _ & _ & _ & _ & _ & _ & _ & ->)]. apply scan_height in Hs. rewrite Hs, Hh. cbn. lra.
  - destruct H as [_ (r3 & Hs & Hh & _ & _ & _ & _ & _ & _ & _ & _ & Hr)]. apply scan_height in Hs. rewrite IH, Hr, Hs, Hh. cbn. unfold hs. lra.
Qed.
Lemma row_fits_ok r rr go r1 after r2 : row_ok r rr go r1 -> trace r1 after r2 -> Forall (fun rr => rr_del rr = false) after ->
  row_fits (r_height r) rr after.
Proof.
  intros [Hlen (r3 & Hs & Hh & _ & _ & _ & _ & Hsp & Hhm & _)] Ht Hd. split.
  - rewrite Hh. apply scan_max in Hs as [Hs _]. exact Hs.
  - intros e He. destruct (scan_in _ _ _ _ _ _ _ _ _ _ Hs e He) as (K1 & K2 & _). split; [exact K1|]. split.
    + intros Hz. rewrite Hh. exact (proj2 (scan_max _ _ _ _ _ _ _ _ _ _ Hs) e He Hz).
    + intros k Hk Hlk. assert (Hp : (0 < rows_left t (rr_index rr) (e_what e))%Z) by lia.
      pose proof (scan_begins _ _ _ _ _ _ _ _ _ _ Hs e He Hp) as Hm. rewrite Hk in Hm.
      pose proof (row_mem r3 r1 (e_col e) Hsp Hhm) as Hm1. rewrite Hm in Hm1. cbn [sub_opt] in Hm1.
      pose proof (trace_span _ _ _ Ht Hd (e_col e) k _ ltac:(lia) Hm1 Hlk) as K. rewrite Hh. lra.
Qed.
Lemma trace_fits : forall recs r r', trace r recs r' -> Forall (fun rr => rr_del rr = false) (tl recs) ->
  forall a rr b, recs = a ++ rr :: b -> exists y0, (y0 == r_height r + qsum (hs a))%Q /\ row_fits y0 rr b.
Proof.
  induction 1 as [|r rr go r1 H|r rr r1 recs r2 H H2 IH]; intros Hd a rr0 b Eab.
  - destruct a; discriminate.
  - destruct a as [|a0 [|a1 a]]; [|discriminate|discriminate]. injection Eab as <- <-. exists (r_height r). split; [cbn; lra|].
    apply (row_fits_ok _ _ _ _ _ _ H (tr_nil _ _ _ _ _ _ _ r1)). constructor.
  - destruct a as [|a0 a].
    + injection Eab as <- <-. exists (r_height r). split; [cbn; lra|]. exact (row_fits_ok _ _ _ _ _ _ H H2 Hd).
    + injection Eab as <- ->. cbn [tl] in Hd.
      assert (Hd' : Forall (fun rr => rr_del rr = false) (tl (a ++ rr0 :: b))).
      { destruct a as [|a1 a]; cbn [app tl] in *; [exact (Forall_inv_tail Hd)|]. exact (Forall_inv_tail Hd). }
      destruct (IH Hd' _ _ _ eq_refl) as (y0 & Hy & Hf). exists y0. split; [|exact Hf]. rewrite Hy. cbn [hs map qsum].
      destruct H as [_ (r3 & Hs & Hh & _ & _ & _ & _ & _ & _ & _ & _ & Hr)]. apply scan_height in Hs. rewrite Hr, Hs, Hh. cbn. unfold hs. lra.
Qed.
Lemma trace_events : forall recs r r', trace r recs r' -> r_events r' = r_events r ++ flat_map (@rr_evs E W P F) recs /\
  r_parts r' = r_parts r ++ flat_map (@e_parts E W P F) (flat_map (@rr_evs E W P F) recs).
Proof.
  induction 1 as [|r rr go r1 H|r rr r1 recs r2 H H2 IH]; cbn [flat_map]; [rewrite !app_nil_r; auto| |].
  - destruct H as [_ (r2 & Hs & _ & _ & Hp & He & _)]. rewrite He, Hp, (scan_events _ _ _ _ _ _ _ _ _ _ _ _ _ _ _ Hs), (scan_parts _ _ _ _ _ _ _ _ _ _ _ _ _ _ _ Hs), app_nil_r. auto.
  - destruct H as [_ (r3 & Hs & _ & _ & Hp & He & _)]. destruct IH as [-> ->].
    rewrite He, Hp, (scan_events _ _ _ _ _ _ _ _ _ _ _ _ _ _ _ Hs), (scan_parts _ _ _ _ _ _ _ _ _ _ _ _ _ _ _ Hs), flat_map_app, <- !app_assoc. auto.
Qed.
End Geom.
