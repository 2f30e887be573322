(** A table over a sequence of rectangles: cells are continued until they are
    finished, rows are added in order, and each place is filled. *)
From Coq Require Import QArith ZArith Lia Sorted.
From Verif Require Import Py Table TableProofs TableGeom.
Open Scope list_scope.
Open Scope nat_scope.

Section Chain.
Context {E W P F B : Type}.
Variable start : E -> res W.
Variable crun : W -> Q -> Q -> Q -> Q -> res (W * Q * bool * list P).
Variable b_eqb : B -> B -> bool.
Variable t : @table E F B.
Notation rstate := (@rstate E W P F B).
Notation incell := (@incell E W F).
Notation event := (@event E W P F).
Notation dcell := (@dcell W F).
Notation rowrec := (@rowrec E W P F).
Notation tstate := (@tstate W F).
Notation output := (@output E W P F B).
Implicit Types (r : rstate) (e : event) (el : incell) (rr : rowrec).

(** ** Specification *)
Definition is_new el : bool := match el with New _ => true | _ => false end.
Definition at_col (c : nat) (evs : list event) : list event := filter (fun e => e_col e =? c) evs.
(** [chained p evs q]: the cells processed at a column, from one that is to be
    continued as [p] to one that is to be continued as [q]. *)
Inductive chained : option dcell -> list event -> option dcell -> Prop :=
| ch_nil p : chained p [] p
| ch_cons p e evs q : match p with Some d => e_what e = Cont d | None => forall d, e_what e <> Cont d end ->
    chained (if e_fin e then None else Some (rest_of t e)) evs q -> chained p (e :: evs) q.
(** Place (i, c) is taken by the cell of [e]. *)
Definition takes e (i c : nat) : Prop :=
  e_row e <= i /\ (Z.of_nat i <= Z.of_nat (e_row e) + Z.max 0 (rows_left t (e_row e) (e_what e)))%Z /\
  e_col e <= c < e_col e + Nat.max 1 (colspan_of t (e_what e)).
Definition lt_pos (a b : nat * nat) : Prop := fst a < fst b \/ (fst a = fst b /\ snd a < snd b).
Definition begun (evs : list event) : list (nat * nat) := map (fun e => (e_row e, e_col e)) (filter (fun e => is_new (e_what e)) evs).
Definition all_events (l : list (tstate * output)) : list event := flat_map (fun so => o_events (snd so)) l.
(** The first row that has not been begun. *)
Definition next_row (s : tstate) : nat :=
  Nat.min (List.length (t_rows t)) (t_index s + match t_delayed s with [] => 0 | _ => 1 end).

(** ** Proofs *)
Lemma chained_app p evs1 q evs2 s : chained p evs1 q -> chained q evs2 s -> chained p (evs1 ++ evs2) s.
Proof. induction 1; cbn [app]; [auto|]. constructor; auto. Qed.
Lemma at_col_app c l1 l2 : at_col c (l1 ++ l2) = at_col c l1 ++ at_col c l2.
Proof. apply filter_app. Qed.
Lemma begun_app l1 l2 : begun (l1 ++ l2) = begun l1 ++ begun l2.
Proof. unfold begun. rewrite filter_app, map_app. reflexivity. Qed.

Section Run.
Variable x y width height : Q.
Notation scan := (scan start crun t x width).
Notation row_ok := (row_ok start crun t x y width height).
Notation trace := (trace start crun t x y width height).
Notation run := (run start crun b_eqb t x y width height).

Lemma scan_chain index first del ya rm r col row r' evs : scan index first del ya rm r col row r' evs ->
  (forall j el, nth_error row j = Some el ->
     if del : bool then el = match nget (col + j) (r_delayed r) with Some d => Cont d | None => Blank end
     else is_new el = true /\ (nget (col + j) (r_delayed r) <> None -> nget (col + j) (r_span r) <> None)) ->
  forall c, chained (nget c (r_delayed r)) (at_col c evs) (nget c (r_delayed r')).
Proof.
  induction 1 as [|r col el row r1 r2 evs H1 H2 H3 IH|r col el row e r1 r2 evs H1 H2 H3 H4 IH]; intros Hrow c.
  - constructor.
  - assert (Hd : r_delayed r1 = r_delayed r) by apply H2. rewrite <- Hd. apply IH. intros j el0 Hj. specialize (Hrow (S j) el0 Hj).
    replace (S col + j) with (col + S j) by lia. rewrite Hd. destruct del; [exact Hrow|]. destruct Hrow as [K1 K2]. split; [exact K1|].
    intros K3. specialize (K2 K3). destruct H2 as [_ _ _ _ _ Hs _ _ _ _ _]. rewrite Hs. unfold span_after.
    destruct (nget col (r_span r)) as [[k w]|]; [|exact K2].
    destruct (k - 1 =? 0)%Z; [rewrite nget_npop_other by lia|rewrite nget_nset_other by lia]; exact K2.
  - assert (Hc : e_col e = col) by apply H2. assert (Hw : e_what e = el) by apply H2. assert (Hd : r_delayed r1 = if e_fin e then npop col (r_delayed r) else nset col (rest_of t e) (r_delayed r)) by apply H3.
    pose proof (Hrow 0 el eq_refl) as H0. rewrite Nat.add_0_r in H0.
    assert (Hrest : forall c, chained (nget c (r_delayed r1)) (at_col c evs) (nget c (r_delayed r2))).
    { apply IH. intros j el0 Hj. specialize (Hrow (S j) el0 Hj). replace (S col + j) with (col + S j) by lia.
      assert (Hn : nget (col + S j) (r_delayed r1) = nget (col + S j) (r_delayed r)).
      { rewrite Hd. destruct (e_fin e); [apply nget_npop_other|apply nget_nset_other]; lia. }
      rewrite Hn. destruct del; [exact Hrow|]. destruct Hrow as [K1 K2]. split; [exact K1|]. intros K3. specialize (K2 K3).
      destruct H3 as [_ _ _ _ _ Hs _ _ _ _ _]. rewrite Hs. destruct (0 <? rows_left t index el)%Z; [rewrite nget_nset_other by lia|]; exact K2. }
    cbn [at_col filter]. rewrite Hc. destruct (col =? c) eqn:Ec.
    + apply Nat.eqb_eq in Ec. subst c. constructor.
      * rewrite Hw. destruct del.
        -- rewrite H0. destruct (nget col (r_delayed r)); [reflexivity|discriminate].
        -- destruct H0 as [K1 K2]. destruct (nget col (r_delayed r)) as [d|].
           ++ exfalso. unfold skips in H1. destruct (nget col (r_span r)); [discriminate|]. exact (K2 ltac:(discriminate) eq_refl).
           ++ intros d ->. discriminate.
      * specialize (Hrest col). rewrite Hd in Hrest. destruct (e_fin e); [rewrite nget_npop_same in Hrest|rewrite nget_nset_same in Hrest]; exact Hrest.
    + apply Nat.eqb_neq in Ec. specialize (Hrest c). fold (at_col c evs).
      replace (nget c (r_delayed r)) with (nget c (r_delayed r1)); [exact Hrest|]. rewrite Hd. destruct (e_fin e); [apply nget_npop_other|apply nget_nset_other]; congruence.
Qed.
(** Cells that are to be continued in the middle of a run have rows left. *)
Definition pending_ok r : Prop := forall c, nget c (r_delayed r) <> None -> nget c (r_span r) <> None.
Lemma can_go_pending r : can_go t r = true -> pending_ok r.
Proof.
  unfold can_go. intros H c Hc. apply andb_prop in H as [_ H]. rewrite forallb_forall in H.
  destruct (nget c (r_delayed r)) as [d|] eqn:Ed; [|congruence]. specialize (H _ (nget_in _ _ _ Ed)). cbn in H. destruct (nget c (r_span r)); congruence.
Qed.
Definition row_right r (rr : rowrec) : Prop :=
  if rr_del rr then rr_row rr = delayed_row t (r_delayed r) else (forall el, In el (rr_row rr) -> is_new el = true) /\ pending_ok r.
Lemma row_chain r rr go r1 : row_ok r rr go r1 -> row_right r rr -> forall c, chained (nget c (r_delayed r)) (at_col c (rr_evs rr)) (nget c (r_delayed r1)).
Proof.
  intros [Hlen (r2 & Hs & _ & _ & _ & _ & Hd & _)] Hr c. rewrite Hd. refine (scan_chain _ _ _ _ _ (reset r) _ _ _ _ Hs _ c).
  intros j el Hj. unfold row_right in Hr. cbn [reset r_delayed r_span]. destruct (rr_del rr).
  - rewrite Hr in Hj. unfold delayed_row in Hj. rewrite nth_error_map in Hj. destruct (nth_error (seq 0 (t_cols t)) j) as [k|] eqn:Ek; [|discriminate].
    cbn in Hj. injection Hj as <-. assert (k = j).
    { assert (Hj2 : j < t_cols t) by (rewrite <- (seq_length (t_cols t) 0); apply nth_error_Some; congruence).
      rewrite (nth_error_nth' _ 0) in Ek by (rewrite seq_length; exact Hj2). rewrite seq_nth in Ek by exact Hj2. cbn in Ek. congruence. }
    subst k. reflexivity.
  - destruct Hr as [K1 K2]. split; [apply K1; eapply nth_error_In; eassumption|apply K2].
Qed.
Lemma content_new rr : content_row t rr -> rr_del rr = false /\ forall el, In el (rr_row rr) -> is_new el = true.
Proof. intros [H1 (row & _ & ->)]. split; [exact H1|]. intros el Hel. apply in_map_iff in Hel as (c & <- & _). reflexivity. Qed.
Lemma trace_chain : forall recs r r', trace r recs r' -> match recs with [] => True | rr :: recs' => row_right r rr /\ Forall (content_row t) recs' end ->
  forall c, chained (nget c (r_delayed r)) (at_col c (flat_map (@rr_evs E W P F) recs)) (nget c (r_delayed r')).
Proof.
  induction 1 as [|r rr go r1 H|r rr r1 recs r2 H H2 IH]; intros Hr c; cbn [flat_map].
  - constructor.
  - rewrite app_nil_r. apply (row_chain _ _ _ _ H (proj1 Hr)).
  - rewrite at_col_app. eapply chained_app; [exact (row_chain _ _ _ _ H (proj1 Hr) c)|]. apply IH. destruct recs as [|rr1 recs]; [exact I|].
    destruct Hr as [_ Hr]. split; [|exact (Forall_inv_tail Hr)]. apply Forall_inv in Hr. destruct (content_new _ Hr) as [K1 K2]. unfold row_right. rewrite K1.
    split; [exact K2|]. destruct H as [_ (r3 & _ & _ & Hg & _ & _ & Hd & Hs & _)]. intros c0 Hc0. rewrite Hs. rewrite Hd in Hc0. symmetry in Hg. exact (can_go_pending _ Hg c0 Hc0).
Qed.
Definition ready (s : tstate) : Prop := t_first s = true -> t_delayed s = [].
Lemma adds_right s s' o recs r1 : adds start crun t x y width height s s' o recs r1 ->
  match recs with [] => True | rr :: recs' => row_right (empty_run t (t_delayed s)) rr /\ Forall (content_row t) recs' end.
Proof.
  intros [_ _ _ _ _ _ _ Hf Hc _ _ _ _ _]. destruct (t_delayed s) as [|d0 dl] eqn:Ed.
  - specialize (Hf eq_refl). destruct recs as [|rr recs]; [exact I|]. split; [|exact (Forall_inv_tail Hf)]. apply Forall_inv, content_new in Hf as [K1 K2].
    unfold row_right. rewrite K1. split; [exact K2|]. intros c. cbn. congruence.
  - destruct Hc as (rr & recs' & -> & H1 & H2 & H3); [discriminate|]. split; [|exact H3]. unfold row_right. rewrite H1. exact H2.
Qed.
Lemma run_chain s s' o : ready s -> run s = Ok (s', o) -> forall c, chained (nget c (t_delayed s)) (at_col c (o_events o)) (nget c (t_delayed s')).
Proof.
  intros Hr H c. destruct (run_cases _ _ _ _ _ _ _ _ _ _ _ Hr H) as [[_ Hc]|[_ (recs & r1 & Ha)]].
  - destruct Hc as (Hd & _ & row & r1 & evs & _ & _ & Hs & _ & _ & _ & _ & -> & ->). rewrite Hd. cbn [t_delayed].
    refine (scan_chain _ _ _ _ _ (reset (empty_run t [])) _ _ _ _ Hs _ c). intros j el Hj. split; [|cbn; congruence].
    rewrite nth_error_map in Hj. destruct (nth_error row j); [|discriminate]. injection Hj as <-. reflexivity.
  - pose proof (adds_right _ _ _ _ _ Ha) as Hright. destruct Ha as [Ht _ He _ _ Hd _ _ _ _ _ _ _ _].
    rewrite He, Hd, (proj1 (trace_events _ _ _ _ _ _ _ _ _ _ Ht)). exact (trace_chain _ _ _ Ht Hright c).
Qed.
Lemma run_ready s s' o : ready s -> run s = Ok (s', o) -> ready s'.
Proof.
  intros Hr H. destruct (run_cases _ _ _ _ _ _ _ _ _ _ _ Hr H) as [[_ Hc]|[_ (recs & r1 & Ha)]].
  - destruct Hc as (Hd & _ & row & r1 & evs & _ & _ & Hs & _ & _ & _ & _ & _ & ->). intros K. discriminate K.
  - destruct Ha as [Ht _ _ _ _ Hd _ _ Hc Hf _ _ _ _]. unfold ready. rewrite Hf. destruct recs as [|rr recs]; [|discriminate]. intros K. rewrite Hd.
    assert (K2 : t_delayed s = []) by (exact (Hr K)). inversion Ht; subst. rewrite K2. reflexivity.
Qed.

(** ** Each place is taken *)
Definition mem_inv (i col : nat) r : Prop := forall c k w, c < t_cols t -> nget c (r_span r) = Some (k, w) -> exists e, In e (r_events r) /\ e_col e = c /\
  (Z.of_nat (e_row e) + rows_left t (e_row e) (e_what e) = Z.of_nat (if (c <? col)%nat then S i else i) - 1 + k)%Z /\ (0 < k)%Z /\
  e_row e < (if c <? col then S i else i) /\ w = (Z.of_nat (colspan_of t (e_what e)) - 1)%Z.
Definition left_inv (i col : nat) r : Prop := (0 < r_colspan r)%Z -> exists e, In e (r_events r) /\ e_row e <= i /\
  (Z.of_nat i <= Z.of_nat (e_row e) + Z.max 0 (rows_left t (e_row e) (e_what e)))%Z /\ e_col e < col /\
  (Z.of_nat (e_col e) + Z.of_nat (colspan_of t (e_what e)) = Z.of_nat col + r_colspan r)%Z.
Lemma ltb_succ c col : (c <? S col) = (if c =? col then true else c <? col).
Proof. destruct (c =? col) eqn:E1; [apply Nat.eqb_eq in E1; apply Nat.ltb_lt; lia|]. apply Nat.eqb_neq in E1.
  destruct (c <? col) eqn:E2; [apply Nat.ltb_lt in E2; apply Nat.ltb_lt; lia|apply Nat.ltb_ge in E2; apply Nat.ltb_ge; lia]. Qed.
Lemma scan_takes i first del ya rm r col row r' evs : scan i first del ya rm r col row r' evs -> col + List.length row <= t_cols t -> mem_inv i col r -> left_inv i col r ->
  (del = true -> forall c, col <= c -> nget c (r_span r) = None) ->
  mem_inv i (col + List.length row) r' /\
  forall c, col <= c < col + List.length row -> (exists e, In e evs /\ e_col e = c) \/ exists e, In e (r_events r') /\ takes e i c.
Proof.
  induction 1 as [r col|r col el row r1 r2 evs H1 H2 H3 IH|r col el row e r1 r2 evs H1 H2 H3 H4 IH]; intros Hlen Hm Hl Hdel; cbn [List.length] in *; try (assert (Hcc : col < t_cols t) by lia).
  - rewrite Nat.add_0_r. split; [exact Hm|]. intros c Hc. lia.
  - destruct H2 as [_ _ _ _ _ Hs _ _ Hv _ He].
    assert (Htake : exists e, In e (r_events r) /\ takes e i col /\ (Z.of_nat (e_col e) + Z.of_nat (colspan_of t (e_what e)) = Z.of_nat (S col) + r_colspan r1)%Z).
    { rewrite Hv. unfold colspan_after. unfold skips in H1. destruct (nget col (r_span r)) as [[k w]|] eqn:En.
      - destruct (Hm _ _ _ Hcc En) as (e & K1 & K2 & K3 & K4 & K5 & K6). rewrite (proj2 (Nat.ltb_ge col col) (le_n col)) in *. exists e. split; [exact K1|]. split; [|lia].
        split; [lia|]. split; [lia|]. lia.
      - apply Z.ltb_lt in H1. destruct (Hl H1) as (e & K1 & K2 & K3 & K4 & K5). exists e. split; [exact K1|]. split; [|lia]. split; [lia|]. split; [lia|]. lia. }
    destruct IH as [IH1 IH2]; [lia| | |intros Hd c Hc; rewrite Hs; unfold span_after; rewrite (Hdel Hd col (le_n col)); apply (Hdel Hd); lia|].
    + intros c k w Hct Hn. rewrite ltb_succ. rewrite Hs in Hn. rewrite He. unfold span_after in Hn. destruct (Nat.eq_dec c col) as [->|Hne].
      * rewrite Nat.eqb_refl. destruct (nget col (r_span r)) as [[k0 w0]|] eqn:En; [|congruence].
        destruct (Hm _ _ _ Hcc En) as (e & K1 & K2 & K3 & K4 & K5 & K6). rewrite (proj2 (Nat.ltb_ge col col) (le_n col)) in *.
        destruct (k0 - 1 =? 0)%Z eqn:Ek; [rewrite nget_npop_same in Hn; discriminate|]. rewrite nget_nset_same in Hn. injection Hn as <- <-. apply Z.eqb_neq in Ek.
        exists e. repeat (split; [assumption|]). split; [lia|]. split; [lia|]. split; [lia|exact K6].
      * replace (c =? col) with false by (symmetry; apply Nat.eqb_neq; exact Hne). cbv iota. apply Hm; [exact Hct|]. destruct (nget col (r_span r)) as [[k0 w0]|]; [|exact Hn].
        destruct (k0 - 1 =? 0)%Z; [rewrite nget_npop_other in Hn by exact Hne|rewrite nget_nset_other in Hn by exact Hne]; exact Hn.
    + intros Hp. destruct Htake as (e & K1 & (K2 & K3 & K4) & K5). exists e. rewrite He. repeat (split; [assumption|]). split; [lia|exact K5].
    + replace (S col + List.length row) with (col + S (List.length row)) in * by lia. split; [exact IH1|]. intros c Hc. destruct (Nat.eq_dec c col) as [->|Hne]; [|apply IH2; lia].
      right. destruct Htake as (e & K1 & K2 & _). exists e. split; [|exact K2]. rewrite (scan_events _ _ _ _ _ _ _ _ _ _ _ _ _ _ _ H3), He. apply in_or_app. now left.
  - assert (Hrow : e_row e = i) by apply H2. assert (Hcol : e_col e = col) by apply H2. assert (Hw : e_what e = el) by apply H2.
    destruct H3 as [_ _ _ _ _ Hs _ _ Hv _ He].
    destruct IH as [IH1 IH2]; [lia| | |intros Hd c Hc; rewrite Hs; destruct (0 <? rows_left t i el)%Z; [rewrite nget_nset_other by lia|]; apply (Hdel Hd); lia|].
    + intros c k w Hct Hn. rewrite ltb_succ. rewrite Hs in Hn. rewrite He. destruct (Nat.eq_dec c col) as [->|Hne].
      * rewrite Nat.eqb_refl. destruct (0 <? rows_left t i el)%Z eqn:El.
        -- rewrite nget_nset_same in Hn. injection Hn as <- <-. apply Z.ltb_lt in El. exists e. split; [apply in_or_app; right; now left|]. split; [exact Hcol|].
           rewrite Hrow, Hw. split; [lia|]. split; [lia|]. split; [lia|reflexivity].
        -- exfalso. unfold skips in H1. rewrite Hn in H1. destruct del; [|discriminate]. rewrite (Hdel eq_refl col (le_n col)) in Hn. discriminate.
      * replace (c =? col) with false by (symmetry; apply Nat.eqb_neq; exact Hne). cbv iota.
        assert (Hn' : nget c (r_span r) = Some (k, w)) by (destruct (0 <? rows_left t i el)%Z; [rewrite nget_nset_other in Hn by exact Hne|]; exact Hn).
        destruct (Hm _ _ _ Hct Hn') as (e' & K1 & K2). exists e'. split; [apply in_or_app; now left|exact K2].
    + intros Hp. rewrite Hv in Hp |- *. exists e. rewrite He. split; [apply in_or_app; right; now left|]. rewrite Hrow, Hw, Hcol. lia.
    + replace (S col + List.length row) with (col + S (List.length row)) in * by lia. split; [exact IH1|]. intros c Hc. destruct (Nat.eq_dec c col) as [->|Hne].
      * left. exists e. split; [now left|exact Hcol].
      * destruct (IH2 c ltac:(lia)) as [(e' & K1 & K2)|K]; [left; exists e'; split; [now right|exact K2]|right; exact K].
Qed.
Lemma row_takes r rr go r1 : row_ok r rr go r1 -> mem_inv (rr_index rr) 0 r -> (rr_del rr = true -> r_span r = []) ->
  mem_inv (S (rr_index rr)) 0 r1 /\
  forall c, c < t_cols t -> (exists e, In e (rr_evs rr) /\ e_col e = c) \/ exists e, In e (r_events r1) /\ takes e (rr_index rr) c.
Proof.
  intros [Hlen (r2 & Hs & _ & _ & _ & He & _ & Hsp & _)] Hm Hd. destruct (scan_takes _ _ _ _ _ _ _ _ _ _ Hs) as [K1 K2].
  - cbn. lia.
  - exact Hm.
  - intros K. cbn in K. lia.
  - intros K c _. cbn. rewrite (Hd K). reflexivity.
  - split.
    + intros c k w Hct Hn. rewrite Hsp in Hn. destruct (K1 c k w Hct Hn) as (e & Q). rewrite He. change (c <? 0) with false. exists e.
      cbn [Nat.add] in Q. rewrite Hlen in Q. rewrite (proj2 (Nat.ltb_lt _ _) Hct) in Q. exact Q.
    + intros c Hc. rewrite He. apply K2. lia.
Qed.
Lemma trace_takes : forall recs r r' i, trace r recs r' -> map (@rr_index E W P F) recs = seq i (List.length recs) -> Forall (fun rr => rr_del rr = false) (tl recs) ->
  (match recs with rr :: _ => rr_del rr = true | [] => False end -> r_span r = []) -> mem_inv i 0 r ->
  forall rr c, In rr recs -> c < t_cols t -> (exists e, In e (rr_evs rr) /\ e_col e = c) \/ exists e, In e (r_events r') /\ takes e (rr_index rr) c.
Proof.
  intros recs r r' i H. revert i. induction H as [|r rr go r1 H|r rr r1 recs r2 H H2 IH]; intros i Hi Hd Hsp Hm rr0 c Hin Hc.
  - destruct Hin.
  - destruct Hin as [<-|[]]. injection Hi as <-. destruct (row_takes _ _ _ _ H Hm Hsp) as [_ K]. exact (K c Hc).
  - cbn [map List.length seq] in Hi. injection Hi as <- Hi. destruct (row_takes _ _ _ _ H Hm Hsp) as [K1 K2]. destruct Hin as [<-|Hin].
    + destruct (K2 c Hc) as [K|(e & K3 & K4)]; [left; exact K|right]. exists e. split; [|exact K4].
      rewrite (proj1 (trace_events _ _ _ _ _ _ _ _ _ _ H2)). apply in_or_app. now left.
    + apply (IH (S (rr_index rr)) Hi); try assumption.
      * destruct recs as [|rr1 recs]; [constructor|]. exact (Forall_inv_tail Hd).
      * destruct recs as [|rr1 recs]; [intros []|]. intros K. apply Forall_inv in Hd. congruence.
Qed.

(** ** Rows in order *)
Lemma scan_cols index first del ya rm r col row r' evs : scan index first del ya rm r col row r' evs ->
  StronglySorted lt (map (@e_col E W P F) evs) /\ forall e, In e evs -> col <= e_col e.
Proof.
  induction 1 as [|r col el row r1 r2 evs H1 H2 H3 IH|r col el row e r1 r2 evs H1 H2 H3 H4 IH]; cbn [map].
  - split; [constructor|intros e []].
  - destruct IH as [K1 K2]. split; [exact K1|]. intros e He. specialize (K2 e He). lia.
  - destruct IH as [K1 K2]. assert (Hc : e_col e = col) by apply H2. split.
    + constructor; [exact K1|]. apply Forall_forall. intros c Hcin. apply in_map_iff in Hcin as (e' & <- & He'). specialize (K2 e' He'). lia.
    + intros e' [<-|He']; [lia|]. specialize (K2 e' He'). lia.
Qed.
Lemma sorted_app {A} (R : A -> A -> Prop) l1 l2 : StronglySorted R l1 -> StronglySorted R l2 -> (forall a b, In a l1 -> In b l2 -> R a b) -> StronglySorted R (l1 ++ l2).
Proof.
  induction 1 as [|a l1 H1 IH H2]; intros Hs Hab; cbn [app]; [exact Hs|]. constructor.
  - apply IH; [exact Hs|]. intros b c Hb Hc. apply Hab; [now right|exact Hc].
  - apply Forall_forall. intros b Hb. apply in_app_or in Hb as [Hb|Hb]; [exact (proj1 (Forall_forall _ _) H2 b Hb)|]. apply Hab; [now left|exact Hb].
Qed.
Lemma scan_begun index first del ya rm r row r' evs : scan index first del ya rm r 0 row r' evs -> StronglySorted lt_pos (begun evs) /\ forall p, In p (begun evs) -> fst p = index.
Proof.
  intros H. destruct (scan_cols _ _ _ _ _ _ _ _ _ _ H) as [H1 _]. pose proof (scan_in _ _ _ _ _ _ _ _ _ _ _ _ _ _ _ H) as H2.
  assert (H3 : forall e, In e evs -> e_row e = index) by (intros e He; apply (H2 e He)). clear H H2. unfold begun.
  split; [|intros p Hp; apply in_map_iff in Hp as (e & <- & He); apply filter_In in He as [He _]; apply (H3 e He)].
  induction evs as [|e evs IH]; cbn [filter map]; [constructor|]. cbn [map] in H1. apply StronglySorted_inv in H1 as [H1 H1'].
  specialize (IH H1 (fun e He => H3 e (or_intror He))). destruct (is_new (e_what e)); [|exact IH]. cbn [map]. constructor; [exact IH|].
  apply Forall_forall. intros p Hp. apply in_map_iff in Hp as (e' & <- & He'). apply filter_In in He' as [He' _]. right. cbn.
  rewrite (H3 e (or_introl eq_refl)), (H3 e' (or_intror He')). split; [reflexivity|]. apply (proj1 (Forall_forall _ _) H1'). now apply in_map.
Qed.
Lemma scan_old index first ya rm r row r' evs : scan index first true ya rm r 0 row r' evs -> (forall el, In el row -> is_new el = false) -> begun evs = [].
Proof.
  intros H Hrow. pose proof (scan_in _ _ _ _ _ _ _ _ _ _ _ _ _ _ _ H) as H2. unfold begun.
  assert (H3 : forall e, In e evs -> is_new (e_what e) = false).
  { intros e He. destruct (H2 e He) as (_ & _ & K). apply Hrow. eapply nth_error_In, K. }
  clear H H2. induction evs as [|e evs IH]; [reflexivity|]. cbn [filter]. rewrite (H3 e (or_introl eq_refl)). apply IH. intros e' He'. apply H3. now right.
Qed.
Lemma delayed_old d el : In el (delayed_row t d) -> is_new el = false.
Proof. intros H. apply in_map_iff in H as (i & <- & _). destruct (nget i d); reflexivity. Qed.
Lemma trace_begun : forall recs r r' i, trace r recs r' -> map (@rr_index E W P F) recs = seq i (List.length recs) -> Forall (content_row t) recs ->
  StronglySorted lt_pos (begun (flat_map (@rr_evs E W P F) recs)) /\
  forall p, In p (begun (flat_map (@rr_evs E W P F) recs)) -> i <= fst p < i + List.length recs.
Proof.
  intros recs r r' i H. revert i. induction H as [|r rr go r1 H|r rr r1 recs r2 H H2 IH]; intros i Hi Hc; cbn [flat_map List.length].
  - split; [constructor|intros p []].
  - rewrite app_nil_r. destruct H as [_ (r2 & Hs & _)]. destruct (scan_begun _ _ _ _ _ _ _ _ _ Hs) as [K1 K2]. split; [exact K1|]. intros p Hp. injection Hi as <-. rewrite (K2 p Hp). lia.
  - rewrite begun_app. cbn [map List.length seq] in Hi. injection Hi as Hi0 Hi. destruct (IH (S i)) as [I1 I2]; [congruence|exact (Forall_inv_tail Hc)|].
    destruct H as [_ (r3 & Hs & _)]. destruct (scan_begun _ _ _ _ _ _ _ _ _ Hs) as [K1 K2]. split.
    + apply sorted_app; [exact K1|exact I1|]. intros a b Ha Hb. left. specialize (K2 a Ha). specialize (I2 b Hb). lia.
    + intros p Hp. apply in_app_or in Hp as [Hp|Hp]; [specialize (K2 p Hp)|specialize (I2 p Hp)]; lia.
Qed.
(** The rows added in a run that is not cancelled. *)
Lemma go_false r : 0 < t_cols t -> can_go t r = false -> r_delayed r <> [].
Proof. intros Hc H K. unfold can_go in H. rewrite K in H. cbn in H. destruct (t_cols t); [lia|discriminate]. Qed.
Record placed (s s' : tstate) (o : output) : Prop := mkPlaced {
  pl_next : next_row s <= next_row s';
  pl_sorted : StronglySorted lt_pos (begun (o_events o));
  pl_rows : forall p, In p (begun (o_events o)) -> next_row s <= fst p < next_row s';
  pl_taken : forall i c, next_row s <= i < next_row s' -> c < t_cols t -> In (i, c) (begun (o_events o)) \/ exists e, In e (o_events o) /\ takes e i c;
  pl_end : t_finished s' = true -> t_finished s = true \/ next_row s' = List.length (t_rows t) /\ t_delayed s' = [] }.
Lemma trace_row : forall recs r r', trace r recs r' -> forall rr e, In rr recs -> In e (rr_evs rr) -> e_row e = rr_index rr /\ In (e_what e) (rr_row rr).
Proof.
  assert (Hrow : forall r rr go r1, row_ok r rr go r1 -> forall e, In e (rr_evs rr) -> e_row e = rr_index rr /\ In (e_what e) (rr_row rr)).
  { intros r rr go r1 [_ (r2 & Hs & _)] e He. destruct (scan_in _ _ _ _ _ _ _ _ _ _ _ _ _ _ _ Hs e He) as (K1 & _ & K3). split; [apply K1|]. eapply nth_error_In, K3. }
  induction 1 as [|r rr go r1 H|r rr r1 recs r2 H H2 IH]; intros rr0 e Hin He.
  - destruct Hin.
  - destruct Hin as [<-|[]]. exact (Hrow _ _ _ _ H e He).
  - destruct Hin as [<-|Hin]; [exact (Hrow _ _ _ _ H e He)|exact (IH _ _ Hin He)].
Qed.
Lemma trace_tail r rr recs r' : trace r (rr :: recs) r' -> exists r1 go, row_ok r rr go r1 /\ trace r1 recs r'.
Proof. inversion 1; subst; eauto using tr_nil. Qed.
Lemma in_index (recs : list rowrec) i j : map (@rr_index E W P F) recs = seq i (List.length recs) -> i <= j < i + List.length recs -> exists rr, In rr recs /\ rr_index rr = j.
Proof. intros H Hj. assert (K : In j (map (@rr_index E W P F) recs)) by (rewrite H; apply in_seq; exact Hj). apply in_map_iff in K as (rr & K1 & K2). eauto. Qed.
Lemma run_placed s s' o : 0 < t_cols t -> ready s -> run s = Ok (s', o) -> o_cancel o = false -> placed s s' o.
Proof.
  intros Hcols Hr H Hcan. destruct (run_cases _ _ _ _ _ _ _ _ _ _ _ Hr H) as [[K _]|[_ (recs & r1 & Ha)]]; [congruence|].
  destruct Ha as [Ht _ He _ _ Hd Hidx Hf Hc _ _ _ Hend Hfin].
  rewrite (proj1 (trace_events _ _ _ _ _ _ _ _ _ _ Ht)) in He. cbn [empty_run r_events app] in He.
  set (lo := t_index s + match t_delayed s with [] => 0 | _ => 1 end).
  assert (Hcont : exists recs0, Forall (content_row t) recs0 /\ (forall rr, In rr recs0 -> In rr recs) /\ t_index s + List.length recs = lo + List.length recs0 /\
     map (@rr_index E W P F) recs0 = seq lo (List.length recs0) /\ begun (o_events o) = begun (flat_map (@rr_evs E W P F) recs0) /\
     (exists r0, trace r0 recs0 r1) /\ Forall (fun rr => rr_del rr = false) (tl recs)).
  { unfold lo. destruct (t_delayed s) as [|d0 dl] eqn:Ed.
    - specialize (Hf eq_refl). exists recs. rewrite Nat.add_0_r. repeat split; auto; try (rewrite He; reflexivity); eauto.
      destruct recs as [|rr recs]; [constructor|]. apply Forall_inv_tail in Hf. eapply Forall_impl; [|exact Hf]. intros a [Ka _]. exact Ka.
    - destruct Hc as (rr & recs0 & -> & K1 & K2 & K3); [discriminate|]. exists recs0. split; [exact K3|]. split; [intros; now right|]. split; [cbn; lia|].
      cbn [map List.length seq] in Hidx. injection Hidx as _ Hidx. split; [rewrite Hidx; f_equal; lia|].
      destruct (trace_tail _ _ _ _ Ht) as (r2 & go & Hok & Ht2). split; [|split; [eauto|]].
      + rewrite He. cbn [flat_map]. rewrite begun_app. destruct Hok as [_ (r3 & Hs & _)]. rewrite K1 in Hs. rewrite (scan_old _ _ _ _ _ _ _ _ Hs); [reflexivity|].
        rewrite K2. intros el. apply delayed_old.
      + cbn [tl]. eapply Forall_impl; [|exact K3]. intros a [Ka _]. exact Ka. }
  destruct Hcont as (recs0 & C1 & C2 & C3 & C4 & C5 & (r0 & C6) & C7).
  assert (Hin : recs0 <> [] -> lo + List.length recs0 <= List.length (t_rows t)).
  { intros Hne. destruct recs0 as [|rr0 recs0'] eqn:E0; [congruence|]. rewrite <- E0 in *. assert (Hl : 0 < List.length recs0) by (rewrite E0; cbn; lia).
    destruct (in_index recs0 lo (lo + List.length recs0 - 1) C4 ltac:(lia)) as (rr & K1 & K2).
    pose proof (proj1 (Forall_forall _ _) C1 rr K1) as [_ (row & K3 & _)]. assert (rr_index rr < List.length (t_rows t)) by (apply nth_error_Some; congruence). lia. }
  assert (Hnext : next_row s' = Nat.min (List.length (t_rows t)) (lo + List.length recs0)).
  { unfold next_row. destruct Hend as [(E1 & E2 & _)|(E1 & rr & r2 & recs' & E2 & E3 & E4)].
    - destruct (t_delayed s'); destruct (le_lt_dec (t_index s) (List.length (t_rows t))); lia.
    - assert (Hne : t_delayed s' <> []). { rewrite Hd. destruct E4 as [_ (r3 & _ & _ & Hg & _ & _ & Hd3 & _)]. rewrite Hd3. apply go_false; [exact Hcols|now symmetry]. }
      destruct (t_delayed s') as [|d1 dl1]; [congruence|]. lia. }
  assert (Hlo : next_row s = Nat.min (List.length (t_rows t)) lo) by reflexivity.
  destruct (trace_begun _ _ _ _ C6 C4 C1) as [S1 S2].
  assert (Hrange : recs0 = [] \/ (lo + List.length recs0 <= List.length (t_rows t))) by (destruct recs0; [now left|right; apply Hin; discriminate]).
  constructor.
  - rewrite Hnext, Hlo. lia.
  - rewrite C5. exact S1.
  - rewrite C5. intros p Hp. specialize (S2 p Hp). destruct Hrange as [->|Hrange]; [cbn in Hp; destruct Hp|]. rewrite Hnext, Hlo. lia.
  - intros i c Hi Hci. destruct Hrange as [->|Hrange]; [cbn in Hnext; lia|].
    destruct (in_index recs0 lo i C4 ltac:(lia)) as (rr & K1 & K2). pose proof (proj1 (Forall_forall _ _) C1 rr K1) as K3. destruct (content_new _ K3) as [_ K4].
    destruct (trace_takes _ _ _ _ Ht Hidx C7) with (rr := rr) (c := c) as [(e & Q1 & Q2)|(e & Q1 & Q2)]; [reflexivity|intros ? ? ? ? K; discriminate K|exact (C2 _ K1)|exact Hci| |].
    + left. rewrite C5. unfold begun. apply in_map_iff. exists e. destruct (trace_row _ _ _ C6 rr e K1 Q1) as [Q3 Q4]. split; [congruence|]. apply filter_In. split; [|exact (K4 _ Q4)].
      apply in_flat_map. eauto.
    + right. exists e. rewrite (proj1 (trace_events _ _ _ _ _ _ _ _ _ _ Ht)) in Q1. cbn [empty_run r_events app] in Q1. rewrite He. rewrite K2 in Q2. auto.
  - intros Hfin'. rewrite Hfin in Hfin'. apply Bool.orb_prop in Hfin' as [K|K]; [right|now left]. apply andb_prop in K as [K1 K2]. apply Nat.leb_le in K1.
    destruct (t_delayed s') eqn:E1; [|discriminate]. split; [unfold next_row; rewrite E1; lia|reflexivity].
Qed.
Lemma run_events s s' o : ready s -> run s = Ok (s', o) -> forall e, In e (o_events o) ->
  begins start t (e_what e) = Ok (e_in e) /\ crun (e_in e) (e_x e) (e_y e) (e_w e) (e_h e) = Ok (e_out e, e_height e, e_fin e, e_parts e) /\
  (forall c, e_what e = New c -> exists row, nth_error (t_rows t) (e_row e) = Some row /\ nth_error row (e_col e) = Some c).
Proof.
  intros Hr H e He.
  assert (Hscan : forall idx first del ya rm r row r' evs, scan idx first del ya rm r 0 row r' evs -> In e evs ->
    (forall c, In (New c) row -> exists cells, nth_error (t_rows t) idx = Some cells /\ row = map New cells) ->
    begins start t (e_what e) = Ok (e_in e) /\ crun (e_in e) (e_x e) (e_y e) (e_w e) (e_h e) = Ok (e_out e, e_height e, e_fin e, e_parts e) /\
    (forall c, e_what e = New c -> exists row, nth_error (t_rows t) (e_row e) = Some row /\ nth_error row (e_col e) = Some c)).
  { intros idx first del ya rm r row r' evs Hs Hin Hrow. destruct (scan_in _ _ _ _ _ _ _ _ _ _ _ _ _ _ _ Hs e Hin) as (K1 & K2 & K3).
    split; [apply K1|]. split; [apply K1|]. intros c Hc. rewrite Hc, Nat.sub_0_r in K3. destruct (Hrow c (nth_error_In _ _ K3)) as (cells & Q1 & Q2).
    exists cells. split; [destruct K1 as [-> _ _ _ _ _ _ _ _ _]; exact Q1|]. rewrite Q2, nth_error_map in K3. destruct (nth_error cells (e_col e)) as [c'|]; [|discriminate]. injection K3 as <-. reflexivity. }
  destruct (run_cases _ _ _ _ _ _ _ _ _ _ _ Hr H) as [[_ Hc]|[_ (recs & r1 & Ha)]].
  - destruct Hc as (_ & _ & row & r1 & evs & Hrow & _ & Hs & _ & _ & _ & _ & Hev & _). rewrite Hev in He. apply (Hscan _ _ _ _ _ _ _ _ _ Hs He). eauto.
  - destruct Ha as [Ht _ Hev _ _ _ _ Hf Hcc _ _ _ _ _]. rewrite (proj1 (trace_events _ _ _ _ _ _ _ _ _ _ Ht)) in Hev. cbn [empty_run r_events app] in Hev. rewrite Hev in He.
    assert (Hrr : forall rr, In rr recs -> forall c, In (New c) (rr_row rr) -> exists cells, nth_error (t_rows t) (rr_index rr) = Some cells /\ rr_row rr = map New cells).
    { intros rr Hrr c Hcell. destruct (t_delayed s) as [|d0 dl] eqn:Ed.
      - destruct (proj1 (Forall_forall _ _) (Hf eq_refl) rr Hrr) as [_ K]. exact K.
      - destruct Hcc as (rr0 & recs0 & -> & K1 & K2 & K3); [discriminate|]. destruct Hrr as [<-|Hrr].
        + rewrite K2 in Hcell. apply delayed_old in Hcell. discriminate.
        + destruct (proj1 (Forall_forall _ _) K3 rr Hrr) as [_ K]. exact K. }
    clear Hev Hf Hcc. induction Ht as [|r rr go r1 H1|r rr r1 recs r2 H1 H2 IH]; cbn [flat_map] in He.
    + destruct He.
    + rewrite app_nil_r in He. destruct H1 as [_ (r2 & Hs & _)]. exact (Hscan _ _ _ _ _ _ _ _ _ Hs He (Hrr rr (or_introl eq_refl))).
    + apply in_app_or in He as [He|He]; [|apply IH; [exact He|intros rr0 Hrr0; apply Hrr; now right]].
      destruct H1 as [_ (r3 & Hs & _)]. exact (Hscan _ _ _ _ _ _ _ _ _ Hs He (Hrr rr (or_introl eq_refl))).
Qed.
Lemma run_parts s s' o : ready s -> run s = Ok (s', o) -> o_parts o = if o_cancel o then [] else flat_map (@e_parts E W P F) (o_events o).
Proof.
  intros Hr H. destruct (run_cases _ _ _ _ _ _ _ _ _ _ _ Hr H) as [[-> Hc]|[-> (recs & r1 & Ha)]].
  - destruct Hc as (_ & _ & row & r1 & evs & _ & _ & _ & _ & -> & _). reflexivity.
  - destruct Ha as [Ht -> -> _ _ _ _ _ _ _ _ _ _ _]. destruct (trace_events _ _ _ _ _ _ _ _ _ _ Ht) as [-> ->]. reflexivity.
Qed.
End Run.

(** ** Many rectangles *)
Notation runs := (runs start crun b_eqb t).
Definition last_state (s : tstate) (l : list (tstate * output)) : tstate := last (map fst l) s.
Definition no_cancel (l : list (tstate * output)) : Prop := forall so, In so l -> o_cancel (snd so) = false.
Lemma last_cons {A} (a b : A) l : last (a :: l) b = last l a.
Proof. revert a b. induction l as [|c l IH]; intros a b; [reflexivity|]. change (last (a :: c :: l) b) with (last (c :: l) b). rewrite !IH. reflexivity. Qed.
Lemma runs_chain : forall rects s l, ready s -> runs s rects = Ok l -> forall c, chained (nget c (t_delayed s)) (at_col c (all_events l)) (nget c (t_delayed (last_state s l))).
Proof.
  induction rects as [|[[[x y] w] h] rects IH]; intros s l Hr H c; cbn [Table.runs] in H.
  - injection H as <-. constructor.
  - destruct (run start crun b_eqb t x y w h s) as [[s1 o]|] eqn:E1; [|discriminate]. cbn [bind] in H. destruct (t_finished s1) eqn:Ef.
    + injection H as <-. cbn [all_events flat_map snd last_state map fst last]. rewrite app_nil_r. exact (run_chain _ _ _ _ _ _ _ Hr E1 c).
    + destruct (runs s1 rects) as [l1|] eqn:E2; [|discriminate]. cbn [bind] in H. injection H as <-. unfold last_state. cbn [all_events flat_map snd map fst]. rewrite at_col_app, last_cons.
      eapply chained_app; [exact (run_chain _ _ _ _ _ _ _ Hr E1 c)|]. exact (IH s1 l1 (run_ready _ _ _ _ _ _ _ Hr E1) E2 c).
Qed.
Lemma runs_events : forall rects s l, ready s -> runs s rects = Ok l -> forall e, In e (all_events l) ->
  begins start t (e_what e) = Ok (e_in e) /\ crun (e_in e) (e_x e) (e_y e) (e_w e) (e_h e) = Ok (e_out e, e_height e, e_fin e, e_parts e) /\
  (forall c, e_what e = New c -> exists row, nth_error (t_rows t) (e_row e) = Some row /\ nth_error row (e_col e) = Some c).
Proof.
  induction rects as [|[[[x y] w] h] rects IH]; intros s l Hr H e He; cbn [Table.runs] in H.
  - injection H as <-. destruct He.
  - destruct (run start crun b_eqb t x y w h s) as [[s1 o]|] eqn:E1; [|discriminate]. cbn [bind] in H. destruct (t_finished s1) eqn:Ef.
    + injection H as <-. cbn [all_events flat_map snd] in He. rewrite app_nil_r in He. exact (run_events _ _ _ _ _ _ _ Hr E1 e He).
    + destruct (runs s1 rects) as [l1|] eqn:E2; [|discriminate]. cbn [bind] in H. injection H as <-. cbn [all_events flat_map snd] in He.
      apply in_app_or in He as [He|He]; [exact (run_events _ _ _ _ _ _ _ Hr E1 e He)|exact (IH s1 l1 (run_ready _ _ _ _ _ _ _ Hr E1) E2 e He)].
Qed.
Lemma runs_parts : forall rects s l, ready s -> runs s rects = Ok l -> forall so, In so l -> o_parts (snd so) = if o_cancel (snd so) then [] else flat_map (@e_parts E W P F) (o_events (snd so)).
Proof.
  induction rects as [|[[[x y] w] h] rects IH]; intros s l Hr H so Hso; cbn [Table.runs] in H.
  - injection H as <-. destruct Hso.
  - destruct (run start crun b_eqb t x y w h s) as [[s1 o]|] eqn:E1; [|discriminate]. cbn [bind] in H. destruct (t_finished s1) eqn:Ef.
    + injection H as <-. destruct Hso as [<-|[]]. exact (run_parts _ _ _ _ _ _ _ Hr E1).
    + destruct (runs s1 rects) as [l1|] eqn:E2; [|discriminate]. cbn [bind] in H. injection H as <-.
      destruct Hso as [<-|Hso]; [exact (run_parts _ _ _ _ _ _ _ Hr E1)|exact (IH s1 l1 (run_ready _ _ _ _ _ _ _ Hr E1) E2 so Hso)].
Qed.
Lemma runs_placed : 0 < t_cols t -> forall rects s l, ready s -> t_finished s = false -> runs s rects = Ok l -> no_cancel l ->
  next_row s <= next_row (last_state s l) /\
  StronglySorted lt_pos (begun (all_events l)) /\ (forall p, In p (begun (all_events l)) -> next_row s <= fst p < next_row (last_state s l)) /\
  (forall i c, next_row s <= i < next_row (last_state s l) -> c < t_cols t -> In (i, c) (begun (all_events l)) \/ exists so e, In so l /\ In e (o_events (snd so)) /\ takes e i c) /\
  (t_finished (last_state s l) = true -> next_row (last_state s l) = List.length (t_rows t) /\ t_delayed (last_state s l) = []).
Proof.
  intros Hcols. induction rects as [|[[[x y] w] h] rects IH]; intros s l Hr Hnf H Hnc; cbn [Table.runs] in H.
  - injection H as <-. cbn. split; [lia|]. split; [constructor|]. split; [intros p []|]. split; [intros; lia|congruence].
  - destruct (run start crun b_eqb t x y w h s) as [[s1 o]|] eqn:E1; [|discriminate]. cbn [bind] in H. destruct (t_finished s1) eqn:Ef.
    + injection H as <-. cbn [all_events flat_map snd last_state map fst last]. rewrite app_nil_r.
      destruct (run_placed _ _ _ _ _ _ _ Hcols Hr E1 (Hnc _ (or_introl eq_refl))) as [P1 P2 P3 P4 P5].
      split; [exact P1|]. split; [exact P2|]. split; [exact P3|]. split.
      * intros i c Hi Hc. destruct (P4 i c Hi Hc) as [K|(e & K1 & K2)]; [now left|right]. exists (s1, o), e. split; [now left|auto].
      * intros K. destruct (P5 K) as [K2|K2]; [congruence|exact K2].
    + destruct (runs s1 rects) as [l1|] eqn:E2; [|discriminate]. cbn [bind] in H. injection H as <-. unfold last_state. cbn [all_events flat_map snd map fst]. rewrite last_cons, begun_app.
      destruct (run_placed _ _ _ _ _ _ _ Hcols Hr E1 (Hnc _ (or_introl eq_refl))) as [P1 P2 P3 P4 P5].
      destruct (IH s1 l1 (run_ready _ _ _ _ _ _ _ Hr E1) Ef E2 (fun so Hso => Hnc so (or_intror Hso))) as (I1 & I2 & I3 & I4 & I5).
      fold (last_state s1 l1). split; [lia|]. split; [|split; [|split; [|exact I5]]].
      * apply sorted_app; [exact P2|exact I2|]. intros a b Ha Hb. left. specialize (P3 a Ha). specialize (I3 b Hb). lia.
      * intros p Hp. apply in_app_or in Hp as [Hp|Hp]; [specialize (P3 p Hp)|specialize (I3 p Hp)]; lia.
      * intros i c Hi Hc. destruct (le_lt_dec (next_row s1) i) as [K|K].
        -- destruct (I4 i c ltac:(lia) Hc) as [Q|(so & e & Q1 & Q2)]; [left; apply in_or_app; now right|right]. exists so, e. split; [now right|exact Q2].
        -- destruct (P4 i c ltac:(lia) Hc) as [Q|(e & Q1 & Q2)]; [left; apply in_or_app; now left|right]. exists (s1, o), e. split; [now left|auto].
Qed.
End Chain.
