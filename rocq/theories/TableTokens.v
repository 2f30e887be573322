(** Invariants: what the cells of a table have to show is shown once, in the
    run of the table or in later ones, when no cell covers more than one row. *)
From Coq Require Import QArith ZArith Lia Lqa List Bool Permutation.
From Verif Require Import Py Table TableProofs TableChain.
Import ListNotations.
Open Scope list_scope.
Open Scope nat_scope.

Section Tokens.
Context {E W P F B T : Type}.
Variable start : E -> res W.
Variable crun : W -> Q -> Q -> Q -> Q -> res (W * Q * bool * list P).
Variable b_eqb : B -> B -> bool.
(** What an element has to show, what its object has left to show, what is
    shown by what is drawn. *)
Variable els : E -> Prop.
Variable inv : W -> Prop.
Variable toks : E -> list T.
Variable left : W -> list T.
Variable show : P -> list T.
Hypothesis start_ok : forall e w, els e -> start e = Ok w -> inv w /\ Permutation (left w) (toks e).
Hypothesis crun_ok : forall o x y w h o' ht fin ps, inv o -> crun o x y w h = Ok (o', ht, fin, ps) ->
  Permutation (left o) (flat_map show ps ++ left o') /\ (if fin then left o' = [] else inv o') /\ ((ht <= 0)%Q -> flat_map show ps = []).
Variable t : @table E F B.
Notation rstate := (@rstate E W P F B).
Notation incell := (@incell E W F).
Notation event := (@event E W P F).
Notation dcell := (@dcell W F).
Notation tstate := (@tstate W F).
Notation rowrec := (@rowrec E W P F).

(** The cells that are shown in a row: not those covered by one before. *)
Fixpoint seen (k : nat) (row : list (@cell E F)) : list (@cell E F) :=
  match row, k with
  | [], _ => []
  | _ :: row, S k => seen k row
  | c :: row, 0 => c :: seen (c_colspan c - 1) row
  end.
Definition row_toks (row : list (@cell E F)) : list T := flat_map (fun c => toks (c_elem c)) (seen 0 row).
Definition cell_ok (c : @cell E F) : Prop :=
  c_rowspan c <= 1 /\ (0 <= m_top (c_style c))%Q /\ (0 <= m_bottom (c_style c))%Q /\ els (c_elem c).
Record table_ok : Prop := mkTableOk {
  tk_cols : 0 < t_cols t;
  tk_cells : forall row c, In row (t_rows t) -> In c row -> cell_ok c;
  tk_blank : cell_ok (t_blank t) /\ c_colspan (t_blank t) = 1 /\ toks (c_elem (t_blank t)) = [];
  tk_borders : forall i c, (0 <= b_width (t_bh t i c))%Q }.
Hypothesis ok : table_ok.

Definition tok_in (el : incell) : list T :=
  match el with New c => toks (c_elem c) | Blank => toks (c_elem (t_blank t)) | Cont d => left (d_state d) end.
Fixpoint visible (k : nat) (row : list incell) : list incell :=
  match row, k with
  | [], _ => []
  | _ :: row, S k => visible k row
  | el :: row, 0 => el :: visible (colspan_of t el - 1) row
  end.
Definition dcell_ok (i : nat) (d : dcell) : Prop :=
  d_rowspan d <= 1 /\ d_row d <= i /\ (0 <= m_top (d_style d))%Q /\ (0 <= m_bottom (d_style d))%Q /\ inv (d_state d).
Definition el_ok (i : nat) (el : incell) : Prop := match el with New c => cell_ok c | Blank => True | Cont d => dcell_ok i d end.
Definition pend (dl : ndict dcell) (c : nat) : list T := match nget c dl with Some d => left (d_state d) | None => [] end.
Definition cell_at (dl : ndict dcell) (c : nat) : incell := match nget c dl with Some d => Cont d | None => Blank end.
(** Nothing is to be continued where a cell is covered. *)
Fixpoint clear (k : nat) (row : list incell) (col : nat) (dl : ndict dcell) : Prop :=
  match row, k with
  | [], _ => True
  | _ :: row, S k => nget col dl = None /\ clear k row (S col) dl
  | el :: row, 0 => clear (colspan_of t el - 1) row (S col) dl
  end.

Lemma clear_same dl dl' : forall row k col, (forall c, col <= c -> nget c dl = nget c dl') -> clear k row col dl -> clear k row col dl'.
Proof.
  induction row as [|el row IH]; intros [|k] col Hs H; cbn [clear] in *; auto.
  - refine (IH _ _ _ H). intros c Hc. apply Hs. lia.
  - destruct H as [H1 H2]. split; [rewrite <- Hs by lia; exact H1|]. refine (IH _ _ _ H2). intros c Hc. apply Hs. lia.
Qed.
Lemma clear_nil : forall row k col, clear k row col [].
Proof. induction row as [|el row IH]; intros [|k] col; cbn [clear]; auto. Qed.
Lemma clear_0 dl : forall n col k, clear k (map (cell_at dl) (seq col n)) col dl -> clear 0 (map (cell_at dl) (seq col n)) col dl.
Proof.
  induction n as [|n IH]; intros col k H; cbn [seq map clear] in *; [exact I|]. destruct k as [|k]; [exact H|].
  destruct H as [H1 H2]. unfold cell_at at 1. rewrite H1. cbn [colspan_of]. destruct (tk_blank ok) as (_ & -> & _). exact (IH _ _ H2).
Qed.
Lemma cells_toks dl : forall n k col, clear k (map (cell_at dl) (seq col n)) col dl ->
  flat_map tok_in (visible k (map (cell_at dl) (seq col n))) = flat_map (pend dl) (seq col n).
Proof.
  induction n as [|n IH]; intros k col H; cbn [seq map visible flat_map] in *; [reflexivity|]. destruct k as [|k]; cbn [clear] in H; cbn [visible flat_map].
  - f_equal; [|apply IH, H]. unfold cell_at, pend. destruct (nget col dl); [reflexivity|]. apply (tk_blank ok).
  - destruct H as [H1 H2]. unfold pend at 1. rewrite H1. apply IH, H2.
Qed.
Lemma visible_new : forall row k, flat_map tok_in (visible k (map New row)) = flat_map (fun c => toks (c_elem c)) (seen k row).
Proof. induction row as [|c row IH]; intros [|k]; cbn [map visible seen flat_map]; auto. f_equal. apply IH. Qed.

Section Run.
Variable x y width height : Q.
Notation scan := (scan start crun t x width).
Notation row_ok := (row_ok start crun t x y width height).
Notation trace := (trace start crun t x y width height).
Notation run := (run start crun b_eqb t x y width height).

Lemma event_toks i first ya rm col el e : event_of start crun t x width i first ya rm col el e -> el_ok i el ->
  Permutation (tok_in el) (flat_map show (e_parts e) ++ left (e_out e)) /\
  (if e_fin e then left (e_out e) = [] else dcell_ok i (rest_of t e)) /\ (rows_left t i el <= 0)%Z /\
  ((e_need e <= 0)%Q -> flat_map show (e_parts e) = []).
Proof.
  intros [H1 H2 H3 _ _ _ _ Hin Hrun Hneed] Hok.
  assert (Hi : inv (e_in e) /\ Permutation (tok_in el) (left (e_in e))).
  { destruct el as [c| |d]; cbn [begins tok_in el_ok] in *.
    - destruct (start_ok _ _ (proj2 (proj2 (proj2 Hok))) Hin) as [K1 K2]. split; [exact K1|symmetry; exact K2].
    - destruct (tk_blank ok) as (Hb & _). destruct (start_ok _ _ (proj2 (proj2 (proj2 Hb))) Hin) as [K1 K2]. split; [exact K1|symmetry; exact K2].
    - injection Hin as Hin. rewrite Hin in *. split; [rewrite <- Hin; apply Hok|reflexivity]. }
  destruct Hi as [Hi Hp]. destruct (crun_ok _ _ _ _ _ _ _ _ _ Hi Hrun) as (R1 & R2 & R3).
  assert (Hst : rowspan_of t el <= 1 /\ row_of i el <= i /\ (0 <= m_top (style_of t el))%Q /\ (0 <= m_bottom (style_of t el))%Q).
  { destruct el as [c| |d]; cbn [rowspan_of row_of style_of el_ok] in *.
    - destruct Hok as (K1 & K2 & K3 & _). auto.
    - destruct (tk_blank ok) as ((K1 & K2 & K3 & _) & _). auto.
    - destruct Hok as (K1 & K2 & K3 & K4 & _). auto. }
  destruct Hst as (S1 & S2 & S3 & S4).
  split; [rewrite Hp; exact R1|]. split; [|split].
  - destruct (e_fin e); [exact R2|]. unfold rest_of, dcell_ok. cbn [d_rowspan d_row d_style d_state]. rewrite H1, H3. auto.
  - unfold rows_left. lia.
  - intros Hn. apply R3. rewrite Hneed in Hn. destruct (Qlt_le_dec 0 (e_height e)) as [Hq|Hq]; [|exact Hq].
    assert (Hl : qlt 0 (e_height e) = true). { unfold qlt. apply negb_true_iff. destruct (Qle_bool (e_height e) 0) eqn:Eq; [|reflexivity]. apply Qle_bool_iff in Eq. lra. }
    rewrite Hl in Hn. unfold pad_top, pad_bottom in Hn. pose proof (tk_borders ok i col). pose proof (tk_borders ok (Z.to_nat (Z.of_nat i + rows_left t i el + 1)) col).
    assert (K : forall q, (0 <= q -> 0 <= q / 2)%Q) by (intros q Hq2; unfold Qdiv; apply Qmult_le_0_compat; [exact Hq2|discriminate]).
    pose proof (K _ H). pose proof (K _ H0). lra.
Qed.

Lemma scan_toks i first del ya rm r col row r' evs : scan i first del ya rm r col row r' evs ->
  (forall c, nget c (r_span r) = None) -> Forall (el_ok i) row -> clear (Z.to_nat (r_colspan r)) row col (r_delayed r) ->
  Permutation (flat_map tok_in (visible (Z.to_nat (r_colspan r)) row))
    (flat_map show (flat_map (@e_parts E W P F) evs) ++ flat_map (pend (r_delayed r')) (seq col (length row))) /\
  (forall c, c < col -> nget c (r_delayed r') = nget c (r_delayed r)) /\
  (forall c, nget c (r_span r') = None) /\
  (forall c d, col <= c < col + length row -> nget c (r_delayed r') = Some d -> dcell_ok i d) /\
  clear (Z.to_nat (r_colspan r)) (map (cell_at (r_delayed r')) (seq col (length row))) col (r_delayed r') /\
  (r_max r <= r_max r')%Q /\ ((r_max r' <= 0)%Q -> flat_map show (flat_map (@e_parts E W P F) evs) = []).
Proof.
  induction 1 as [r col|r col el row r1 r2 evs Hsk Hs Hsc IH|r col el row e r1 r2 evs Hsk He Hp Hsc IH]; intros Hsp Hok Hcl.
  - destruct (Z.to_nat (r_colspan r)); cbn [length seq map visible flat_map app clear]; repeat split; auto; try lra; intros; lia.
  - inversion Hok as [|? ? Ho Hok']; subst. unfold skips in Hsk. rewrite Hsp in Hsk. apply Z.ltb_lt in Hsk.
    destruct Hs as [_ _ _ _ _ S1 _ S2 S3 S4 _]. unfold span_after, max_after, colspan_after in S1, S2, S3. rewrite Hsp in S1, S2, S3.
    destruct (Z.to_nat (r_colspan r)) as [|k] eqn:Ek; [lia|]. cbn [clear] in Hcl. destruct Hcl as [C1 C2].
    assert (Ek1 : Z.to_nat (r_colspan r1) = k) by (rewrite S3; lia). rewrite Ek1 in IH.
    destruct IH as (I1 & I2 & I3 & I4 & I5 & I6 & I7); [intros c; rewrite S1; apply Hsp|exact Hok'|rewrite S4; exact C2|].
    assert (Hc : nget col (r_delayed r2) = None) by (rewrite I2 by lia; rewrite S4; exact C1).
    cbn [length seq map visible flat_map clear]. unfold pend at 1. rewrite Hc. cbn [app]. rewrite S2 in I6.
    split; [exact I1|]. split; [|split; [exact I3|split; [|split; [split; [first [exact Hc|reflexivity]|exact I5]|split; assumption]]]].
    + intros c Hc2. rewrite I2 by lia. now rewrite S4.
    + intros c d Hr Hd. destruct (Nat.eq_dec c col) as [->|]; [congruence|]. apply (I4 c d); [lia|exact Hd].
  - inversion Hok as [|? ? Ho Hok']; subst. unfold skips in Hsk. rewrite Hsp in Hsk. apply Z.ltb_ge in Hsk.
    destruct (event_toks _ _ _ _ _ _ _ He Ho) as (V1 & V2 & V3 & V4).
    destruct Hp as [_ _ _ _ _ S1 _ S2 S3 S4 _]. assert (Hrl : (0 <? rows_left t i el)%Z = false) by (apply Z.ltb_ge; lia). rewrite Hrl in S1, S2. cbv zeta in S2.
    assert (Ek : Z.to_nat (r_colspan r) = 0) by lia. rewrite Ek in *. cbn [clear] in Hcl.
    assert (Ek1 : Z.to_nat (r_colspan r1) = colspan_of t el - 1) by (rewrite S3; lia). rewrite Ek1 in IH.
    assert (Hsame : forall c, c <> col -> nget c (r_delayed r1) = nget c (r_delayed r)).
    { intros c Hn. rewrite S4. destruct (e_fin e); [apply nget_npop_other|apply nget_nset_other]; exact Hn. }
    destruct IH as (I1 & I2 & I3 & I4 & I5 & I6 & I7);
      [intros c; rewrite S1; apply Hsp|exact Hok'|refine (clear_same _ _ _ _ _ _ Hcl); intros c Hc; symmetry; apply Hsame; lia|].
    assert (Hc : nget col (r_delayed r2) = if e_fin e then None else Some (rest_of t e)).
    { rewrite I2 by lia. rewrite S4. destruct (e_fin e); [apply nget_npop_same|apply nget_nset_same]. }
    assert (Hmax : (r_max r <= r_max r1 /\ e_need e <= r_max r1)%Q).
    { rewrite S2. unfold qlt. destruct (Qle_bool (e_need e) (r_max r)) eqn:Eq; cbn [negb].
      - apply Qle_bool_iff in Eq. split; [apply Qle_refl|exact Eq].
      - assert (~ (e_need e <= r_max r)%Q) by (rewrite <- Qle_bool_iff, Eq; discriminate). lra. }
    assert (Hpend : pend (r_delayed r2) col = left (e_out e)).
    { unfold pend. rewrite Hc. destruct (e_fin e); [symmetry; exact V2|reflexivity]. }
    cbn [length seq map visible flat_map clear]. rewrite Hpend, flat_map_app.
    split; [|split; [|split; [exact I3|split; [|split; [|split]]]]].
    + rewrite V1, I1. rewrite <- !app_assoc. apply Permutation_app_head. rewrite !app_assoc. apply Permutation_app_tail. apply Permutation_app_comm.
    + intros c Hc2. rewrite I2 by lia. apply Hsame. lia.
    + intros c d Hr Hd. destruct (Nat.eq_dec c col) as [->|]; [|apply (I4 c d); [lia|exact Hd]].
      rewrite Hc in Hd. destruct (e_fin e); [discriminate|]. injection Hd as <-. exact V2.
    + unfold cell_at at 1. rewrite Hc. destruct (e_fin e).
      * cbn [colspan_of]. destruct (tk_blank ok) as (_ & -> & _). exact (clear_0 _ _ _ _ I5).
      * cbn [colspan_of rest_of d_colspan]. destruct He as [_ _ He _ _ _ _ _ _ _]. rewrite He. exact I5.
    + lra.
    + intros Hle. rewrite I7 by exact Hle. rewrite V4 by lra. reflexivity.
Qed.

(** ** A row *)
Definition rec_toks (rr : rowrec) : list T := flat_map tok_in (visible 0 (rr_row rr)).
Definition can_start (r : rstate) (rr : rowrec) : Prop :=
  (forall c, nget c (r_span r) = None) /\ Forall (el_ok (rr_index rr)) (rr_row rr) /\ clear 0 (rr_row rr) 0 (r_delayed r).
Definition ends (i : nat) (r : rstate) : Prop :=
  (forall c, nget c (r_span r) = None) /\ (forall c d, c < t_cols t -> nget c (r_delayed r) = Some d -> dcell_ok i d) /\
  clear 0 (delayed_row t (r_delayed r)) 0 (r_delayed r).
Lemma row_go r rr go r1 : row_ok r rr go r1 -> can_go t r1 = go.
Proof. intros [_ (r2 & _ & _ & -> & _ & _ & Hd & Hsp & _)]. unfold can_go. now rewrite Hd, Hsp. Qed.
Lemma go_true (r : rstate) : (forall c, nget c (r_span r) = None) -> can_go t r = true -> r_delayed r = [].
Proof.
  intros Hsp Hgo. unfold can_go in Hgo. apply andb_prop in Hgo as [_ Hgo]. rewrite forallb_forall in Hgo.
  destruct (r_delayed r) as [|kv dl]; [reflexivity|]. specialize (Hgo kv (or_introl eq_refl)). rewrite Hsp in Hgo. discriminate.
Qed.
Lemma row_toks_ok r rr go r1 : row_ok r rr go r1 -> can_start r rr ->
  Permutation (rec_toks rr) (flat_map show (flat_map (@e_parts E W P F) (rr_evs rr)) ++ flat_map (pend (r_delayed r1)) (seq 0 (t_cols t))) /\
  ends (rr_index rr) r1 /\ (r_height r <= r_height r1)%Q /\
  ((r_height r1 <= r_height r)%Q -> flat_map show (flat_map (@e_parts E W P F) (rr_evs rr)) = []) /\
  (go = true -> r_delayed r1 = []).
Proof.
  intros [Hlen (r2 & Hs & Hh & Hgo & _ & _ & Hd & Hsp & _ & _ & _ & Hrh)] (C1 & C2 & C3).
  destruct (scan_toks _ _ _ _ _ _ _ _ _ _ Hs C1 C2 C3) as (I1 & _ & I3 & I4 & I5 & I6 & I7).
  cbn [reset r_colspan r_max Z.to_nat] in *. rewrite Hlen in *. rewrite (scan_height _ _ _ _ _ _ _ _ _ _ _ _ _ _ _ Hs) in Hrh. cbn [reset r_height] in Hrh.
  rewrite Hd, Hrh. split; [exact I1|]. split; [split; [intros c; rewrite Hsp; apply I3|]; rewrite Hd; split; [|exact I5]; intros c d Hc; apply I4; lia|].
  split; [lra|]. split; [intros H; apply I7; lra|].
  intros ->. symmetry in Hgo. exact (go_true _ I3 Hgo).
Qed.

Lemma new_start (r : rstate) rr : (forall c, nget c (r_span r) = None) -> r_delayed r = [] -> content_row t rr -> can_start r rr.
Proof.
  intros H1 H2 (_ & row & Hn & Hr). split; [exact H1|]. rewrite H2. split; [|apply clear_nil]. rewrite Hr. apply Forall_forall. intros el Hi.
  apply in_map_iff in Hi as (c & <- & Hc). cbn [el_ok]. exact (tk_cells ok _ _ (nth_error_In _ _ Hn) Hc).
Qed.
Definition evs_parts (recs : list rowrec) : list P := flat_map (@e_parts E W P F) (flat_map (@rr_evs E W P F) recs).
Lemma trace_toks r recs r' : trace r recs r' -> forall rr recs', recs = rr :: recs' -> can_start r rr -> Forall (content_row t) recs' ->
  Permutation (flat_map rec_toks recs) (flat_map show (evs_parts recs) ++ flat_map (pend (r_delayed r')) (seq 0 (t_cols t))) /\
  (exists rr', In rr' recs /\ ends (rr_index rr') r') /\ (r_height r <= r_height r')%Q /\
  ((r_height r' <= r_height r)%Q -> flat_map show (evs_parts recs) = []).
Proof.
  assert (Hpnil : flat_map (pend []) (seq 0 (t_cols t)) = []) by (generalize (seq 0 (t_cols t)); induction l; cbn; auto).
  unfold evs_parts. induction 1 as [r|r rr0 go r1 Hr|r rr0 r1 recs r2 Hr Ht IH]; intros rr recs' Heq Hst Hcs; [discriminate| |].
  - injection Heq as <- <-. destruct (row_toks_ok _ _ _ _ Hr Hst) as (K1 & K2 & K3 & K4 & _). cbn [flat_map]. rewrite !app_nil_r.
    split; [exact K1|]. split; [exists rr0; split; [now left|exact K2]|]. split; [exact K3|exact K4].
  - injection Heq as <- <-. destruct (row_toks_ok _ _ _ _ Hr Hst) as (K1 & K2 & K3 & K4 & K5). specialize (K5 eq_refl).
    rewrite K5, Hpnil, app_nil_r in K1. destruct recs as [|rr1 recs].
    + inversion Ht; subst. cbn [flat_map]. rewrite !app_nil_r, K5, Hpnil, app_nil_r.
      split; [exact K1|]. split; [exists rr0; split; [now left|exact K2]|]. split; [exact K3|exact K4].
    + inversion Hcs as [|? ? Hc Hcs']; subst. destruct (IH rr1 recs eq_refl) as (L1 & (rr' & L2 & L2') & L3 & L4);
        [apply new_start; [apply K2|exact K5|exact Hc]|exact Hcs'|].
      change (flat_map rec_toks (rr0 :: rr1 :: recs)) with (rec_toks rr0 ++ flat_map rec_toks (rr1 :: recs)).
      change (flat_map (@rr_evs E W P F) (rr0 :: rr1 :: recs)) with (rr_evs rr0 ++ flat_map (@rr_evs E W P F) (rr1 :: recs)).
      rewrite !flat_map_app. split; [rewrite K1, L1, app_assoc; reflexivity|]. split; [exists rr'; split; [now right|exact L2']|].
      split; [lra|]. intros Hle. rewrite K4, L4 by lra. reflexivity.
Qed.

(** ** A run *)
Definition rows_toks (rows : list (list (@cell E F))) : list T := flat_map row_toks rows.
Definition state_left (s : tstate) : list T :=
  flat_map (pend (t_delayed s)) (seq 0 (t_cols t)) ++
  rows_toks (skipn (match t_delayed s with [] => t_index s | _ => S (t_index s) end) (t_rows t)).
Record state_ok (s : tstate) : Prop := mkStateOk {
  so_fin : t_finished s = false;
  so_ready : ready s;
  so_index : t_index s <= length (t_rows t);
  so_cells : forall c d, c < t_cols t -> nget c (t_delayed s) = Some d -> dcell_ok (t_index s) d;
  so_clear : clear 0 (delayed_row t (t_delayed s)) 0 (t_delayed s) }.

Lemma dcell_ok_le i j d : i <= j -> dcell_ok i d -> dcell_ok j d.
Proof. intros H (H1 & H2 & H3). split; [exact H1|]. split; [lia|exact H3]. Qed.
Lemma skipn_S {A} (l : list A) i a : nth_error l i = Some a -> skipn i l = a :: skipn (S i) l.
Proof. revert i; induction l as [|b l IH]; intros [|i]; cbn; try discriminate; [congruence|apply IH]. Qed.
Lemma recs_toks : forall recs i, Forall (content_row t) recs -> map (@rr_index E W P F) recs = seq i (length recs) ->
  rows_toks (skipn i (t_rows t)) = flat_map rec_toks recs ++ rows_toks (skipn (i + length recs) (t_rows t)).
Proof.
  induction recs as [|rr recs IH]; intros i Hc Hi; cbn [length map seq flat_map app] in *; [now rewrite Nat.add_0_r|].
  inversion Hc as [|? ? (_ & row & Hn & Hr) Hcs]; subst. injection Hi as H1 H2. rewrite H1 in Hn. rewrite (skipn_S _ _ _ Hn). cbn [rows_toks flat_map].
  fold (rows_toks (skipn (S i) (t_rows t))). rewrite (IH (S i) Hcs H2), <- app_assoc. replace (S i + length recs) with (i + S (length recs)) by lia.
  f_equal. unfold rec_toks, row_toks. rewrite Hr. symmetry. apply visible_new.
Qed.
Lemma recs_bound : forall recs i, Forall (content_row t) recs -> map (@rr_index E W P F) recs = seq i (length recs) -> recs <> [] -> i + length recs <= length (t_rows t).
Proof.
  induction recs as [|rr recs IH]; intros i Hc Hi Hn; [congruence|]. cbn [length map seq] in *. injection Hi as H1 H2.
  inversion Hc as [|? ? (_ & row & Hr & _) Hcs]; subst. assert (rr_index rr < length (t_rows t)) by (apply nth_error_Some; congruence).
  destruct recs as [|rr1 recs]; [cbn; lia|]. specialize (IH _ Hcs H2 ltac:(discriminate)). cbn [length] in *. lia.
Qed.

Lemma run_toks s s' o : state_ok s -> run s = Ok (s', o) ->
  Permutation (state_left s) (flat_map show (o_parts o) ++ state_left s') /\
  (if t_finished s' then state_left s' = [] else state_ok s') /\ ((o_height o <= 0)%Q -> flat_map show (o_parts o) = []).
Proof.
  intros [Hfin Hready Hindex Hcells Hclear] Hrun.
  assert (Hpnil : flat_map (pend []) (seq 0 (t_cols t)) = []) by (generalize (seq 0 (t_cols t)); induction l; cbn; auto).
  pose proof (run_parts start crun b_eqb t x y width height s s' o Hready Hrun) as Hparts.
  destruct (run_cases start crun b_eqb t x y width height s s' o Hready Hrun) as [(Hcan & Hc)|(Hcan & recs & r1 & Ha)]; rewrite Hcan in Hparts.
  - destruct Hc as (Hd & Hf & row & r1 & evs & Hn & Hlen & Hs & Hmax & _ & _ & _ & _ & ->).
    rewrite Hparts. cbn [flat_map app t_finished]. rewrite Hfin. cbn [t_delayed t_index].
    assert (Hin : In row (t_rows t)) by exact (nth_error_In _ _ Hn).
    destruct (scan_toks _ _ _ _ _ _ _ _ _ _ Hs) as (I1 & _ & I3 & I4 & I5 & I6 & I7).
    { intros c. reflexivity. }
    { apply Forall_forall. intros el Hi. apply in_map_iff in Hi as (c & <- & Hc). exact (tk_cells ok _ _ Hin Hc). }
    { apply clear_nil. }
    rewrite map_length, Hlen in *. cbn [reset empty_run r_colspan Z.to_nat] in I1, I5. rewrite visible_new in I1. rewrite I7 in I1 by lra. cbn [app] in I1.
    fold (row_toks row) in I1. split; [|split; [|reflexivity]].
    + unfold state_left. rewrite Hd. cbn [t_delayed t_index]. rewrite Hpnil. cbn [app]. rewrite (skipn_S _ _ _ Hn). cbn [rows_toks flat_map]. fold (rows_toks (skipn (S (t_index s)) (t_rows t))).
      destruct (r_delayed r1) as [|kv dl] eqn:Ed.
      * rewrite Hpnil in I1 |- *. cbn [app]. rewrite (skipn_S _ _ _ Hn). reflexivity.
      * rewrite <- Ed in *. rewrite I1. reflexivity.
    + constructor; cbn [t_finished t_index t_delayed]; auto.
      * intros H. cbn in H. discriminate.
      * intros c d Hc. apply I4. lia.
  - clear Hparts. destruct Ha as [Htr HP HE HH _ HD Hi Hfr Hco Hfi _ _ Hend HF]. rewrite Hfin, orb_false_r in HF.
    assert (Hevs : r_parts r1 = evs_parts recs).
    { clear - Htr. assert (K : forall r recs r1, trace r recs r1 -> r_parts r1 = r_parts r ++ evs_parts recs).
      { unfold evs_parts. clear. assert (K : forall r rr go r1, row_ok r rr go r1 -> r_parts r1 = r_parts r ++ flat_map (@e_parts E W P F) (rr_evs rr)).
        { intros r rr go r1 [_ (r2 & Hs & _ & _ & -> & _)]. rewrite (scan_parts _ _ _ _ _ _ _ _ _ _ _ _ _ _ _ Hs). reflexivity. }
        induction 1 as [r|r rr go r1 Hr|r rr r1 recs r2 Hr Ht IH]; cbn [flat_map]; [now rewrite app_nil_r| |].
        - rewrite app_nil_r. exact (K _ _ _ _ Hr).
        - rewrite IH, (K _ _ _ _ Hr), flat_map_app, app_assoc. reflexivity. }
      exact (K _ _ _ Htr). }
    rewrite HP, Hevs, HH. clear HP Hevs HE.
    assert (Hleft : recs <> [] -> exists rr recs', recs = rr :: recs' /\ can_start (empty_run t (t_delayed s)) rr /\ Forall (content_row t) recs' /\
      state_left s = flat_map rec_toks recs ++ rows_toks (skipn (t_index s + length recs) (t_rows t)) /\ t_index s + length recs <= S (length (t_rows t)) /\ t_index s + length recs - 1 <= length (t_rows t)).
    { intros Hn. destruct (t_delayed s) as [|kv dl] eqn:Ed.
      - specialize (Hfr eq_refl). destruct recs as [|rr recs]; [congruence|]. exists rr, recs. split; [reflexivity|].
        pose proof (recs_bound _ _ Hfr Hi Hn) as Hb.
        split; [apply new_start; [intros c; reflexivity|reflexivity|now inversion Hfr]|]. split; [now inversion Hfr|]. split; [|lia].
        unfold state_left. rewrite Ed, Hpnil. cbn [app]. apply recs_toks; assumption.
      - destruct Hco as (rr & recs' & -> & Hdel & Hrow & Hcs); [discriminate|]. exists rr, recs'. split; [reflexivity|].
        cbn [map length seq] in Hi. injection Hi as Hi1 Hi2.
        assert (Hst : can_start (empty_run t (kv :: dl)) rr).
        { split; [intros c; reflexivity|]. split; [|rewrite Hrow; exact Hclear]. rewrite Hrow. apply Forall_forall. intros el He. unfold delayed_row in He.
          apply in_map_iff in He as (c & <- & Hc). apply in_seq in Hc. destruct (nget c (kv :: dl)) as [d|] eqn:Eg; cbn [el_ok]; [|exact I].
          rewrite Hi1. apply (Hcells c); [lia|exact Eg]. }
        split; [exact Hst|]. split; [exact Hcs|]. cbn [length]. replace (t_index s + S (length recs')) with (S (t_index s) + length recs') by lia. split.
        + unfold state_left. rewrite Ed. cbn [flat_map]. rewrite (recs_toks recs' (S (t_index s)) Hcs Hi2), app_assoc. f_equal. f_equal.
          unfold rec_toks. rewrite Hrow. unfold delayed_row. symmetry. apply cells_toks. exact Hclear.
        + destruct recs' as [|rr1 recs']; [cbn [length]; lia|]. pose proof (recs_bound _ _ Hcs Hi2 ltac:(discriminate)). lia. }
    destruct recs as [|rr0 recs0] eqn:Er.
    + inversion Htr; subst r1. destruct Hend as [(E1 & E2 & _)|(_ & rr & r0 & recs' & K & _)]; [|destruct recs'; discriminate].
      cbn [length] in E1. rewrite Nat.add_0_r in E1. specialize (E2 Hindex).
      assert (Hds : t_delayed s = []). { destruct (t_delayed s) as [|kv dl] eqn:Ed; [reflexivity|]. destruct Hco as (rr & recs' & K & _); [discriminate|discriminate K]. }
      cbn [empty_run r_delayed] in HD. rewrite Hds in HD. rewrite HD in HF. assert (Hlb : (length (t_rows t) <=? t_index s') = true) by (apply Nat.leb_le; exact E2).
      rewrite Hlb in HF. cbn [andb] in HF. rewrite HF. cbn [evs_parts flat_map app].
      assert (Hs' : state_left s' = []). { unfold state_left. rewrite HD, Hpnil. cbn [app]. rewrite skipn_all2 by exact E2. reflexivity. }
      split; [|split; [exact Hs'|reflexivity]]. rewrite Hs'. unfold state_left. rewrite Hds, Hpnil. cbn [app]. rewrite skipn_all2 by lia. constructor.
    + rewrite <- Er in *. assert (Hne : recs <> []) by (rewrite Er; discriminate).
      destruct (Hleft Hne) as (rr & recs' & Hrecs & Hst & Hcs & Hl & Hb1 & Hb2).
      destruct (trace_toks _ _ _ Htr rr recs' Hrecs Hst Hcs) as (T1 & (rrl & T2 & T2') & T3 & T4). cbn [empty_run r_height] in T3, T4.
      assert (Hlast : S (rr_index rrl) <= t_index s + length recs).
      { assert (Hin : In (rr_index rrl) (map (@rr_index E W P F) recs)) by (apply in_map; exact T2). rewrite Hi in Hin. apply in_seq in Hin. lia. }
      rewrite HD in *. destruct Hend as [(E1 & E2 & E3)|(E1 & rr2 & r0 & recs2 & E2 & E3 & E4)].
      * specialize (E2 Hindex). destruct (E3 Hne) as (rr2 & r0 & recs2 & F1 & F2 & F3).
        assert (Hd' : r_delayed r1 = []).
        { apply go_true; [apply T2'|]. exact (row_go _ _ _ _ F3). }
        rewrite Hd' in *. assert (Hlb : (length (t_rows t) <=? t_index s') = true) by (apply Nat.leb_le; exact E2).
        rewrite Hlb in HF. cbn [andb] in HF. rewrite HF.
        assert (Hs' : state_left s' = []). { unfold state_left. rewrite HD, Hpnil. cbn [app]. rewrite skipn_all2 by exact E2. reflexivity. }
        split; [|split; [exact Hs'|exact T4]]. rewrite Hs', Hl, T1, Hpnil, !app_nil_r. rewrite <- E1, skipn_all2 by exact E2. cbn. rewrite app_nil_r. reflexivity.
      * assert (Hd' : r_delayed r1 <> []) by exact (go_false _ _ (tk_cols ok) (row_go _ _ _ _ E4)).
        assert (Hm : forall A (a b : A), match r_delayed r1 with [] => a | _ :: _ => b end = b) by (intros A a b; destruct (r_delayed r1); congruence).
        rewrite Hm, andb_false_r in HF. rewrite HF. split; [|split; [|exact T4]].
        -- rewrite Hl, T1. unfold state_left. rewrite HD, Hm, <- E1, <- app_assoc. reflexivity.
        -- destruct T2' as (T5 & T6 & T7). constructor; [exact HF| |lia| |].
           ++ intros K. congruence.
           ++ rewrite HD. intros c d Hc Hg. apply (dcell_ok_le (rr_index rrl)); [lia|]. exact (T6 c d Hc Hg).
           ++ rewrite HD. exact T7.
Qed.
End Run.
End Tokens.
