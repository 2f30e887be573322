(** Rows are no higher than their cells need.  Proofs only. *)
From Coq Require Import QArith ZArith Lia Lqa.
From Verif Require Import Py Table TableProofs TableGeom.
Open Scope list_scope.
Open Scope nat_scope.

Section Height.
Context {E W P F B : Type}.
Variable start : E -> res W.
Variable crun : W -> Q -> Q -> Q -> Q -> res (W * Q * bool * list P).
Variable t : @table E F B.
Variable x y width height : Q.
Notation rstate := (@rstate E W P F B).
Notation event := (@event E W P F).
Notation rowrec := (@rowrec E W P F).
Notation scan := (scan start crun t x width).
Notation row_ok := (row_ok start crun t x y width height).
Notation trace := (trace start crun t x y width height).
Implicit Types (r : rstate) (e : event).

Definition left_over (c : nat) r : Q := match nget c (r_hmem r) with Some h => h | None => 0%Q end.
Lemma span_after_other r col c : c <> col -> nget c (span_after r col) = nget c (r_span r).
Proof.
  intros Hc. unfold span_after. destruct (nget col (r_span r)) as [[rows cols]|]; [|reflexivity].
  destruct (rows - 1 =? 0)%Z; [apply nget_npop_other|apply nget_nset_other]; exact Hc.
Qed.
Lemma processed_other index ya r r' col el e c : processed t x width index ya r r' col el e -> c <> col ->
  nget c (r_span r') = nget c (r_span r) /\ nget c (r_hmem r') = nget c (r_hmem r).
Proof.
  intros [_ _ _ _ Hh Hs _ _ _ _ _] Hc. rewrite Hh, Hs. destruct (0 <? rows_left t index el)%Z; [|auto].
  rewrite !nget_nset_other by exact Hc. auto.
Qed.
(** The height of a row is that of a cell that ends in it. *)
Lemma scan_tight index first del ya rm r col row r2 evs : scan index first del ya rm r col row r2 evs -> (0 <= r_max r)%Q ->
  r_max r2 = r_max r \/
  (exists e, In e evs /\ (rows_left t index (e_what e) <= 0)%Z /\ r_max r2 = e_need e) \/
  (exists c w, col <= c < col + List.length row /\ nget c (r_span r) = Some (1%Z, w) /\ r_max r2 = left_over c r).
Proof.
  induction 1 as [|r col el row r1 r2 evs H1 H2 H3 IH|r col el row e0 r1 r2 evs H1 H2 H3 H4 IH]; intros H0; cbn [List.length].
  - now left.
  - pose proof (skipped_max _ _ _ H2) as Hm. destruct IH as [K|[(e & K1 & K2 & K3)|(c & w & K1 & K2 & K3)]]; [lra| | |].
    + destruct H2 as [_ _ _ _ _ _ _ Hx _ _ _]. unfold max_after in Hx. rewrite K, Hx. destruct (nget col (r_span r)) as [[k w]|] eqn:En; [|now left].
      destruct (k - 1 =? 0)%Z eqn:Ek; [|now left]. apply Z.eqb_eq in Ek. assert (k = 1%Z) by lia. subst k. cbv zeta.
      destruct (qlt (r_max r) _); [|now left]. right. right. exists col, w. split; [lia|]. split; [exact En|]. reflexivity.
    + right. left. eauto.
    + right. right. exists c, w. split; [lia|]. destruct H2 as [_ _ _ _ Hh Hs _ _ _ _ _]. rewrite Hs, span_after_other in K2 by lia.
      unfold left_over in *. rewrite Hh in K3. auto.
  - pose proof (proj1 (processed_max _ _ _ _ _ _ _ _ _ _ H3)) as Hm. destruct IH as [K|[(e & K1 & K2 & K3)|(c & w & K1 & K2 & K3)]]; [lra| | |].
    + destruct H3 as [_ _ _ _ _ _ _ Hx _ _ _]. cbv zeta in Hx. rewrite K, Hx. destruct (0 <? rows_left t index el)%Z eqn:Ez.
      * destruct (qlt (r_max r) 0) eqn:Eq; [|now left]. apply qlt_true in Eq. lra.
      * destruct (qlt (r_max r) (e_need e0)); [|now left]. right. left. exists e0. split; [now left|]. apply Z.ltb_ge in Ez.
        assert (e_what e0 = el) as -> by apply H2. auto.
    + right. left. exists e. split; [now right|]. auto.
    + right. right. exists c, w. split; [lia|]. destruct (processed_other _ _ _ _ _ _ _ c H3) as [Hs Hh]; [lia|].
      rewrite Hs in K2. unfold left_over in *. rewrite Hh in K3. auto.
Qed.
(** The spans that are open after a row: the ones it began, and the ones that
    go on. *)
Lemma scan_spans index first del ya rm r col row r2 evs : scan index first del ya rm r col row r2 evs ->
  (del = true -> forall c, col <= c -> nget c (r_span r) = None) ->
  forall c k w, nget c (r_span r2) = Some (k, w) ->
  (~ col <= c < col + List.length row /\ nget c (r_span r) = Some (k, w) /\ nget c (r_hmem r2) = nget c (r_hmem r)) \/
  (col <= c < col + List.length row /\ exists w', nget c (r_span r) = Some ((k + 1)%Z, w') /\ k <> 0%Z /\ nget c (r_hmem r2) = nget c (r_hmem r)) \/
  (col <= c < col + List.length row /\ exists e, In e evs /\ (0 < k)%Z /\ rows_left t index (e_what e) = k /\ nget c (r_hmem r2) = Some (e_need e)).
Proof.
  induction 1 as [|r col el row r1 r2 evs H1 H2 H3 IH|r col el row e0 r1 r2 evs H1 H2 H3 H4 IH]; intros Hd c k w Hc; cbn [List.length].
  - left. split; [lia|auto].
  - assert (Hd' : del = true -> forall c, S col <= c -> nget c (r_span r1) = None).
    { intros Ht c0 Hc0. destruct H2 as [_ _ _ _ _ Hs _ _ _ _ _]. rewrite Hs, span_after_other by lia. apply Hd; [exact Ht|lia]. }
    pose proof H2 as [_ _ _ _ Hh Hs _ _ _ _ _].
    destruct (IH Hd' c k w Hc) as [(K1 & K2 & K3)|[(K1 & w' & K2 & K3 & K4)|(K1 & e & K2 & K3 & K4 & K5)]].
    + rewrite Hh in K3. destruct (Nat.eq_dec c col) as [->|Hne].
      * right. left. split; [lia|]. rewrite Hs in K2. unfold span_after in K2. destruct (nget col (r_span r)) as [[k0 w0]|] eqn:En; [|rewrite En in K2; discriminate].
        destruct (k0 - 1 =? 0)%Z eqn:Ek; [rewrite nget_npop_same in K2; discriminate|]. rewrite nget_nset_same in K2. injection K2 as <- <-.
        apply Z.eqb_neq in Ek. exists w0. split; [do 2 f_equal; lia|]. auto.
      * left. rewrite Hs, span_after_other in K2 by exact Hne. split; [lia|]. auto.
    + right. left. split; [lia|]. exists w'. rewrite Hs, span_after_other in K2 by lia. rewrite Hh in K4. auto.
    + right. right. split; [lia|]. eauto 10.
  - assert (Hd' : del = true -> forall c, S col <= c -> nget c (r_span r1) = None).
    { intros Ht c0 Hc0. destruct (processed_other _ _ _ _ _ _ _ c0 H3) as [-> _]; [lia|]. apply Hd; [exact Ht|lia]. }
    destruct (IH Hd' c k w Hc) as [(K1 & K2 & K3)|[(K1 & w' & K2 & K3 & K4)|(K1 & e & K2 & K3 & K4 & K5)]].
    + destruct (Nat.eq_dec c col) as [->|Hne].
      * right. right. split; [lia|]. assert (Hn : nget col (r_span r) = None).
        { unfold skips in H1. destruct (nget col (r_span r)) eqn:En; [|reflexivity]. destruct del; [|discriminate]. rewrite (Hd eq_refl col) in En by lia. discriminate. }
        destruct H3 as [_ _ _ _ Hh Hs _ _ _ _ _]. rewrite Hs in K2. destruct (0 <? rows_left t index el)%Z eqn:Ez; [|rewrite Hn in K2; discriminate].
        rewrite nget_nset_same in K2. injection K2 as <- <-. exists e0. split; [now left|]. apply Z.ltb_lt in Ez. split; [exact Ez|].
        assert (e_what e0 = el) as -> by apply H2. split; [reflexivity|]. rewrite K3, Hh. apply nget_nset_same.
      * left. destruct (processed_other _ _ _ _ _ _ _ c H3 Hne) as [Hs Hh]. rewrite Hs in K2. rewrite Hh in K3. split; [lia|]. auto.
    + right. left. split; [lia|]. destruct (processed_other _ _ _ _ _ _ _ c H3) as [Hs Hh]; [lia|]. exists w'. rewrite Hs in K2. rewrite Hh in K4. auto.
    + right. right. split; [lia|]. exists e. split; [now right|]. auto.
Qed.

(** The spans that are open after the rows [pre]. *)
Definition open_spans (pre : list rowrec) r : Prop := forall c k w, nget c (r_span r) = Some (k, w) ->
  c < t_cols t /\ (0 < k)%Z /\ exists q a rr b e, nget c (r_hmem r) = Some q /\ pre = a ++ rr :: b /\ In e (rr_evs rr) /\
    rows_left t (rr_index rr) (e_what e) = (k + Z.of_nat (List.length b))%Z /\ (q == e_need e - qsum (hs (rr :: b)))%Q.
(** The last of the rows [pre] is as high as a cell needs that ends in it. *)
Definition ends_here (pre : list rowrec) : Prop := exists a rr b e, pre = a ++ rr :: b /\ In e (rr_evs rr) /\
  match b with [] => (rows_left t (rr_index rr) (e_what e) <= 0)%Z | _ => rows_left t (rr_index rr) (e_what e) = Z.of_nat (List.length b) end /\
  (e_need e == qsum (hs (rr :: b)))%Q.
Lemma hs_snoc (l : list rowrec) rr : (qsum (hs (l ++ [rr])) == qsum (hs l) + rr_height rr)%Q.
Proof. unfold hs. rewrite map_app, qsum_app. cbn [map qsum]. lra. Qed.
Lemma row_tight r rr go r1 pre : row_ok r rr go r1 -> (rr_del rr = true -> forall c, nget c (r_span r) = None) -> open_spans pre r ->
  ((rr_height rr == 0)%Q \/ ends_here (pre ++ [rr])) /\ open_spans (pre ++ [rr]) r1.
Proof.
  intros [Hlen (r2 & Hs & Hh & _ & _ & _ & _ & Hsp & Hhm & _)] Hdel Ho. split.
  - destruct (scan_tight _ _ _ _ _ _ _ _ _ _ Hs) as [K|[(e & K1 & K2 & K3)|(c & w & K1 & K2 & K3)]]; [cbn; lra| | |].
    + left. rewrite Hh, K. reflexivity.
    + right. exists pre, rr, [], e. split; [reflexivity|]. split; [exact K1|]. split; [exact K2|]. cbn [hs map qsum]. rewrite Hh, K3. lra.
    + cbn [reset r_span] in K2. destruct (Ho c 1%Z w K2) as (_ & _ & q & a & rr0 & b & e & E1 & E2 & E3 & E4 & E5).
      right. exists a, rr0, (b ++ [rr]), e. split; [rewrite E2, <- app_assoc; reflexivity|]. split; [exact E3|]. split.
      * destruct (b ++ [rr]) eqn:Eb; [destruct b; discriminate|]. rewrite <- Eb, app_length. cbn [List.length]. lia.
      * change (rr0 :: b ++ [rr]) with ((rr0 :: b) ++ [rr]). rewrite hs_snoc. rewrite Hh, K3. unfold left_over. cbn [reset r_hmem]. rewrite E1, E5. lra.
  - intros c k w Hk. rewrite Hsp in Hk. rewrite Hhm.
    destruct (scan_spans _ _ _ _ _ _ _ _ _ _ Hs (fun Ht c _ => Hdel Ht c) c k w Hk) as [(K1 & K2 & K3)|[(K1 & w' & K2 & K3 & K4)|(K1 & e & K2 & K3 & K4 & K5)]];
      cbn [reset r_span r_hmem] in *; rewrite ?Hlen in K1; cbn [Nat.add] in K1.
    + destruct (Ho c k w K2) as (K & _). lia.
    + destruct (Ho c _ w' K2) as (K5 & K6 & q & a & rr0 & b & e & E1 & E2 & E3 & E4 & E5). split; [exact K5|]. split; [lia|].
      exists (q - r_max r2)%Q, a, rr0, (b ++ [rr]), e. split; [rewrite nget_map_sub, K4, E1; reflexivity|]. split; [rewrite E2, <- app_assoc; reflexivity|].
      split; [exact E3|]. split; [rewrite E4, app_length; cbn [List.length]; lia|]. change (rr0 :: b ++ [rr]) with ((rr0 :: b) ++ [rr]). rewrite hs_snoc, Hh, E5. lra.
    + split; [lia|]. split; [exact K3|]. exists (e_need e - r_max r2)%Q, pre, rr, [], e. split; [rewrite nget_map_sub, K5; reflexivity|].
      split; [reflexivity|]. split; [exact K2|]. split; [cbn; lia|]. cbn [hs map qsum]. rewrite Hh. lra.
Qed.
Lemma trace_tight : forall recs r r', trace r recs r' -> forall pre, open_spans pre r ->
  match recs with [] => True | rr :: l => (rr_del rr = true -> forall c, nget c (r_span r) = None) /\ Forall (fun rr => rr_del rr = false) l end ->
  forall a rr b, recs = a ++ rr :: b -> (rr_height rr == 0)%Q \/ ends_here (pre ++ a ++ [rr]).
Proof.
  induction 1 as [|r rr go r1 H|r rr r1 recs r2 H H2 IH]; intros pre Ho Hd a rr0 b Eab.
  - destruct a; discriminate.
  - destruct a as [|a0 [|a1 a]]; [|discriminate|discriminate]. injection Eab as <- <-. exact (proj1 (row_tight _ _ _ _ _ H (proj1 Hd) Ho)).
  - destruct (row_tight _ _ _ _ _ H (proj1 Hd) Ho) as [K1 K2]. destruct a as [|a0 a].
    + injection Eab as <- <-. exact K1.
    + injection Eab as <- ->. cbn [app]. replace (pre ++ rr :: a ++ [rr0]) with ((pre ++ [rr]) ++ a ++ [rr0]) by (now rewrite <- app_assoc).
      apply (IH _ K2) with (b := b); [|reflexivity]. destruct Hd as [_ Hd]. destruct a as [|a1 a]; cbn [app] in *.
      * split; [intros K; rewrite (Forall_inv Hd) in K; discriminate|exact (Forall_inv_tail Hd)].
      * split; [intros K; rewrite (Forall_inv Hd) in K; discriminate|exact (Forall_inv_tail Hd)].
Qed.
End Height.
