(** Facts about runs of tables. *)
From Coq Require Import QArith ZArith Lia Lqa.
From Verif Require Import Py Table.
Open Scope list_scope.
Open Scope nat_scope.

Lemma nget_nset_same {V} k (v : V) d : nget k (nset k v d) = Some v.
Proof. induction d as [|[k' v'] d IH]; cbn [nset nget]; [now rewrite Nat.eqb_refl|]. destruct (k =? k') eqn:E; cbn [nget]; rewrite E; [reflexivity|exact IH]. Qed.
Lemma nget_nset_other {V} k k' (v : V) d : k <> k' -> nget k (nset k' v d) = nget k d.
Proof.
  intros H. induction d as [|[a b] d IH]; cbn [nset nget].
  - destruct (k =? k') eqn:E; [apply Nat.eqb_eq in E; contradiction|reflexivity].
  - destruct (k' =? a) eqn:E; cbn [nget].
    + apply Nat.eqb_eq in E. subst a. destruct (k =? k') eqn:E2; [apply Nat.eqb_eq in E2; contradiction|reflexivity].
    + now rewrite IH.
Qed.
Lemma nget_npop_same {V} k (d : ndict V) : nget k (npop k d) = None.
Proof.
  induction d as [|[a b] d IH]; cbn [npop filter fst nget]; [reflexivity|]. destruct (k =? a) eqn:E; cbn [negb]; [exact IH|].
  cbn [nget]. now rewrite E.
Qed.
Lemma nget_npop_other {V} k k' (d : ndict V) : k <> k' -> nget k (npop k' d) = nget k d.
Proof.
  intros H. induction d as [|[a b] d IH]; cbn [npop filter fst nget]; [reflexivity|]. destruct (k' =? a) eqn:E; cbn [negb nget].
  - apply Nat.eqb_eq in E. subst a. destruct (k =? k') eqn:E2; [apply Nat.eqb_eq in E2; contradiction|exact IH].
  - unfold npop in IH. now rewrite IH.
Qed.
Lemma nget_in {V} k (v : V) d : nget k d = Some v -> In (k, v) d.
Proof. induction d as [|[a b] d IH]; cbn [nget]; [discriminate|]. destruct (k =? a) eqn:E; [apply Nat.eqb_eq in E; intros [= ->]; subst; now left|intros H; right; auto]. Qed.
Lemma nget_none {V} k (d : ndict V) : nget k d = None -> forall v, ~ In (k, v) d.
Proof.
  induction d as [|[a b] d IH]; cbn [nget]; [intros _ v []|]. destruct (k =? a) eqn:E; [discriminate|]. apply Nat.eqb_neq in E.
  intros H v [[= -> ->]|K]; [congruence|]. exact (IH H v K).
Qed.

Section Proofs.
Context {E W P F B : Type}.
Variable start : E -> res W.
Variable crun : W -> Q -> Q -> Q -> Q -> res (W * Q * bool * list P).
Variable b_eqb : B -> B -> bool.
Variable t : @table E F B.
Variable x y width height : Q.
Notation rstate := (@rstate E W P F B).
Notation incell := (@incell E W F).
Notation event := (@event E W P F).
Notation dcell := (@dcell W F).
Notation add_cell := (add_cell start crun b_eqb t x width).
Notation add_cells := (add_cells start crun b_eqb t x width).
Notation add_row := (add_row start crun b_eqb t x y width height).
Notation add_rows := (add_rows start crun b_eqb t x y width height).
Notation run := (run start crun b_eqb t x y width height).
Notation process_borders := (process_borders b_eqb t width).
Notation sum_widths := (sum_widths t).
Implicit Types (r : rstate) (e : event) (el : incell).

(** ** What a cell is *)
Definition colspan_of (el : incell) : nat :=
  match el with New c => c_colspan c | Blank => c_colspan (t_blank t) | Cont d => d_colspan d end.
Definition rowspan_of (el : incell) : nat :=
  match el with New c => c_rowspan c | Blank => c_rowspan (t_blank t) | Cont d => d_rowspan d end.
Definition style_of (el : incell) : cstyle :=
  match el with New c => c_style c | Blank => c_style (t_blank t) | Cont d => d_style d end.
(** The row where it was begun. *)
Definition row_of (index : nat) (el : incell) : nat := match el with Cont d => d_row d | _ => index end.
Definition begins (el : incell) : res W :=
  match el with New c => start (c_elem c) | Blank => start (c_elem (t_blank t)) | Cont d => Ok (d_state d) end.
(** The rows after this one that it covers. *)
Definition rows_left (index : nat) (el : incell) : Z := (Z.of_nat (rowspan_of el) - 1 - Z.of_nat index + Z.of_nat (row_of index el))%Z.
Definition pad_left (index col : nat) (el : incell) : Q := (b_width (t_bv t index col) / 2 + m_left (style_of el))%Q.
Definition pad_right (index col : nat) (el : incell) : Q := (b_width (t_bv t index (col + colspan_of el)) / 2 + m_right (style_of el))%Q.
Definition pad_top (index col : nat) (el : incell) : Q := (b_width (t_bh t index col) / 2 + m_top (style_of el))%Q.
Definition pad_bottom (index col : nat) (el : incell) : Q :=
  (b_width (t_bh t (Z.to_nat (Z.of_nat index + rows_left index el + 1)) col) / 2 + m_bottom (style_of el))%Q.
(** An event is that of the cell in this place. *)
Record event_of (index : nat) (first : bool) (y_abs rowmax : Q) (col : nat) (el : incell) (e : event) : Prop := mkEventOf {
  eo_row : e_row e = index;
  eo_col : e_col e = col;
  eo_what : e_what e = el;
  eo_x : e_x e = (x + sum_widths 0 col * width + pad_left index col el)%Q;
  eo_y : e_y e = (y_abs - pad_top index col el)%Q;
  eo_w : e_w e = (sum_widths col (col + colspan_of el) * width - (pad_left index col el + pad_right index col el))%Q;
  eo_h : e_h e = (rowmax - (pad_top index col el + pad_bottom index col el))%Q;
  eo_in : begins el = Ok (e_in e);
  eo_run : crun (e_in e) (e_x e) (e_y e) (e_w e) (e_h e) = Ok (e_out e, e_height e, e_fin e, e_parts e);
  eo_need : e_need e = (e_height e + (if qlt 0 (e_height e) then pad_top index col el + pad_bottom index col el else if first then 0 else 4))%Q }.
(** The cell that is still to be continued after an event. *)
Definition rest_of (e : event) : dcell :=
  mkD (colspan_of (e_what e)) (rowspan_of (e_what e)) (row_of (e_row e) (e_what e)) (style_of (e_what e)) (e_out e).

(** ** One cell *)
Definition skips (r : rstate) (col : nat) (is_delayed : bool) : bool :=
  match nget col (r_span r) with None => (0 <? r_colspan r)%Z | Some _ => negb is_delayed end.
Lemma pb_fields (r : rstate) col xa ya bl bt : exists v tp ti, process_borders r col xa ya bl bt = with_borders r v tp ti.
Proof.
  unfold Table.process_borders. destruct (nth_vert col (r_vert r)) as [vl vint].
  match goal with |- context [let '(a, b) := ?X in _] => destruct X as [top2 topint2] end.
  match goal with |- context [let '(a, b) := ?X in _] => destruct X as [vl2 vint2] end. eauto.
Qed.
Definition span_after (r : rstate) (col : nat) : ndict (Z * Z) :=
  match nget col (r_span r) with
  | Some (rows, cols) => if (rows - 1 =? 0)%Z then npop col (r_span r) else nset col ((rows - 1)%Z, cols) (r_span r)
  | None => r_span r
  end.
Definition colspan_after (r : rstate) (col : nat) : Z :=
  match nget col (r_span r) with Some (_, cols) => cols | None => (r_colspan r - 1)%Z end.
Definition max_after (r : rstate) (col : nat) : Q :=
  match nget col (r_span r) with
  | Some (rows, _) => if (rows - 1 =? 0)%Z then
                        let h := match nget col (r_hmem r) with Some h => h | None => 0%Q end in if qlt (r_max r) h then h else r_max r
                      else r_max r
  | None => r_max r
  end.
Definition fmem_after (r : rstate) (col : nat) : ndict fill :=
  match nget col (r_span r) with
  | Some (rows, _) => if (rows - 1 =? 0)%Z then
                        match nget col (r_fmem r) with
                        | Some f => nset col (mkFill (f_x f) (f_y f) (f_w f) (f_h f) (f_color f) false) (r_fmem r)
                        | None => r_fmem r
                        end
                      else r_fmem r
  | None => r_fmem r
  end.
Record skipped (r r' : rstate) (col : nat) : Prop := mkSkipped {
  sk_parts : r_parts r' = r_parts r; sk_lines : r_lines r' = r_lines r; sk_fills : r_fills r' = r_fills r;
  sk_fmem : r_fmem r' = fmem_after r col; sk_hmem : r_hmem r' = r_hmem r; sk_span : r_span r' = span_after r col;
  sk_height : r_height r' = r_height r; sk_max : r_max r' = max_after r col; sk_colspan : r_colspan r' = colspan_after r col;
  sk_delayed : r_delayed r' = r_delayed r; sk_events : r_events r' = r_events r }.
Definition new_fill (index col : nat) (y_abs : Q) (el : incell) : option fill :=
  match (match s_fill (style_of el) with Some f => Some f | None => t_fills t index col end) with
  | Some f => Some (mkFill (x + sum_widths 0 col * width)%Q y_abs
                      ((sum_widths col (col + colspan_of el) * width - (pad_left index col el + pad_right index col el))
                       + (pad_left index col el + pad_right index col el))%Q 0 f (0 <? rows_left index el)%Z)
  | None => None
  end.
Record processed (index : nat) (y_abs : Q) (r r' : rstate) (col : nat) (el : incell) (e : event) : Prop := mkProcessed {
  pr_parts : r_parts r' = r_parts r ++ e_parts e; pr_lines : r_lines r' = r_lines r; pr_fills : r_fills r' = r_fills r;
  pr_fmem : r_fmem r' = match new_fill index col y_abs el with Some f => nset col f (r_fmem r) | None => r_fmem r end;
  pr_hmem : r_hmem r' = (if (0 <? rows_left index el)%Z then nset col (e_need e) (r_hmem r) else r_hmem r);
  pr_span : r_span r' = (if (0 <? rows_left index el)%Z then nset col (rows_left index el, (Z.of_nat (colspan_of el) - 1)%Z) (r_span r) else r_span r);
  pr_height : r_height r' = r_height r;
  pr_max : r_max r' = (let n := if (0 <? rows_left index el)%Z then 0%Q else e_need e in if qlt (r_max r) n then n else r_max r);
  pr_colspan : r_colspan r' = (Z.of_nat (colspan_of el) - 1)%Z;
  pr_delayed : r_delayed r' = (if e_fin e then npop col (r_delayed r) else nset col (rest_of e) (r_delayed r));
  pr_events : r_events r' = r_events r ++ [e] }.
Lemma add_cell_cases index first del ya rm (r : rstate) col el r' : add_cell index first del ya rm r col el = Ok r' ->
  (skips r col del = true /\ skipped r r' col) \/
  (skips r col del = false /\ exists e, event_of index first ya rm col el e /\ processed index ya r r' col el e).
Proof.
  unfold Table.add_cell, skips. intros H.
  destruct (is_span r col (t_bv t index col) (t_bh t index col) del) as [[[skip r1] bl] bt] eqn:Es.
  destruct (pb_fields r1 col (x + sum_widths 0 col * width)%Q ya (Some bl) (Some bt)) as (v & tp & ti & Ep).
  rewrite Ep in H. clear Ep.
  assert (Hs : skip = match nget col (r_span r) with None => (0 <? r_colspan r)%Z | Some _ => negb del end /\
    (skip = false -> r1 = r /\ bl = t_bv t index col /\ bt = t_bh t index col) /\
    (skip = true -> skipped r (with_borders r1 v tp ti) col)).
  { unfold is_span in Es. destruct (nget col (r_span r)) as [[rows cols]|] eqn:En.
    - destruct del; [injection Es as <- <- <- <-; cbn [negb]; split; [reflexivity|split; [auto|discriminate]]|].
      destruct (rows - 1 =? 0)%Z eqn:Er; injection Es as <- <- _ _; cbn [negb]; (split; [reflexivity|split; [discriminate|intros _]]);
        unfold with_borders; constructor; cbn; unfold span_after, colspan_after, max_after, fmem_after; rewrite ?En, ?Er; reflexivity.
    - destruct (0 <? r_colspan r)%Z eqn:Ec.
      + destruct (r_isrow r); injection Es as <- <- _ _; (split; [reflexivity|split; [discriminate|intros _]]);
          unfold with_borders; constructor; cbn; unfold span_after, colspan_after, max_after, fmem_after; rewrite ?En; reflexivity.
      + injection Es as <- <- <- <-. split; [reflexivity|split; [auto|discriminate]]. }
  destruct Hs as (Hs1 & Hs2 & Hs3). rewrite <- Hs1. destruct skip.
  - left. split; [reflexivity|]. injection H as <-. now apply Hs3.
  - right. split; [reflexivity|]. destruct (Hs2 eq_refl) as (-> & -> & ->). clear Hs1 Hs2 Hs3 Es.
    assert (Hel : exists s0, begins el = Ok s0 /\ True) by (destruct el; cbn [begins] in *; [destruct (start (c_elem c))|destruct (start (c_elem (t_blank t)))|]; cbn [bind] in H; try discriminate; eauto).
    destruct Hel as (s0 & Hb & _).
    assert (Hm : forall A (k : nat -> nat -> nat -> cstyle -> W -> res A) ,
      (let '(cs0, rs0, row, st) :=
        match el with
        | New c => (c_colspan c, c_rowspan c, index, c_style c)
        | Blank => (c_colspan (t_blank t), c_rowspan (t_blank t), index, c_style (t_blank t))
        | Cont d => (d_colspan d, d_rowspan d, d_row d, d_style d)
        end in
       do s0 <- (match el with New c => start (c_elem c) | Blank => start (c_elem (t_blank t)) | Cont d => Ok (d_state d) end);
       k cs0 rs0 row st s0) = k (colspan_of el) (rowspan_of el) (row_of index el) (style_of el) s0).
    { intros A k. destruct el; cbn [begins colspan_of rowspan_of row_of style_of] in *; try rewrite Hb; cbn [bind]; try reflexivity; injection Hb as <-; reflexivity. }
    rewrite Hm in H. clear Hm.
    destruct (crun _ _ _ _ _) as [[[[s1 h] fin] ps]|] eqn:Ec in H; [|discriminate]. cbn [bind] in H. injection H as <-. cbn [with_borders r_events].
    match goal with |- context [r_events r ++ [?ev]] => exists ev end. split.
    + constructor; cbn [e_row e_col e_what e_x e_y e_w e_h e_in e_out e_height e_need e_fin e_parts];
        unfold pad_left, pad_right, pad_top, pad_bottom, rows_left; try reflexivity; [exact Hb|]. exact Ec.
    + unfold with_borders.
      constructor; cbn; unfold new_fill, pad_left, pad_right, pad_top, pad_bottom, rows_left, rest_of; cbn; try reflexivity.
      destruct (s_fill (style_of el)) as [f|]; [reflexivity|]. destruct (t_fills t index col); reflexivity.
Qed.

(** ** A row *)
Inductive scan (index : nat) (first del : bool) (ya rm : Q) : rstate -> nat -> list incell -> rstate -> list event -> Prop :=
| scan_nil r col : scan index first del ya rm r col [] r []
| scan_skip r col el row r1 r2 evs : skips r col del = true -> skipped r r1 col -> scan index first del ya rm r1 (S col) row r2 evs ->
    scan index first del ya rm r col (el :: row) r2 evs
| scan_proc r col el row e r1 r2 evs : skips r col del = false -> event_of index first ya rm col el e -> processed index ya r r1 col el e ->
    scan index first del ya rm r1 (S col) row r2 evs -> scan index first del ya rm r col (el :: row) r2 (e :: evs).
Lemma add_cells_scan index first del ya rm : forall row r col r', add_cells index first del ya rm r col row = Ok r' ->
  exists evs, scan index first del ya rm r col row r' evs.
Proof.
  induction row as [|el row IH]; intros r col r' H; cbn [Table.add_cells] in H.
  - injection H as <-. exists []. constructor.
  - destruct (add_cell index first del ya rm r col el) as [r1|] eqn:E1; [|discriminate]. cbn [bind] in H.
    destruct (IH _ _ _ H) as (evs & Hs). destruct (add_cell_cases _ _ _ _ _ _ _ _ _ E1) as [[H1 H2]|(H1 & e & H2 & H3)].
    + exists evs. econstructor; eassumption.
    + exists (e :: evs). econstructor 3; eassumption.
Qed.
Definition reset (r : rstate) : rstate :=
  mkR (r_parts r) (r_lines r) (r_fills r) (r_fmem r) (r_hmem r) (r_span r) (r_vert r) (r_height r) 0 0 [] true false (r_delayed r) (r_events r).
(** Whether the next row can be begun: not all columns are to be continued, and
    those that are have rows left. *)
Definition can_go (r : rstate) : bool :=
  negb (list_sum (map (fun kv => d_colspan (snd kv)) (r_delayed r)) =? t_cols t)
  && forallb (fun kv => match nget (fst kv) (r_span r) with Some _ => true | None => false end) (r_delayed r).
(** A row that was added. *)
Record rowrec := mkRow { rr_index : nat; rr_first : bool; rr_del : bool; rr_row : list incell; rr_evs : list event; rr_height : Q }.
Record row_ok (r : rstate) (rr : rowrec) (go : bool) (r' : rstate) : Prop := mkRowOk {
  ro_len : List.length (rr_row rr) = t_cols t;
  ro_scan : exists r1, scan (rr_index rr) (rr_first rr) (rr_del rr) (y - r_height r)%Q (height - r_height r)%Q (reset r) 0 (rr_row rr) r1 (rr_evs rr) /\
    rr_height rr = r_max r1 /\ go = can_go r1 /\ r_parts r' = r_parts r1 /\ r_events r' = r_events r1 /\ r_delayed r' = r_delayed r1 /\ r_span r' = r_span r1 /\
    r_hmem r' = map (fun kv => (fst kv, (snd kv - r_max r1)%Q)) (r_hmem r1) /\
    r_fmem r' = fst (flush_fills (r_max r1) go (r_fmem r1)) /\ r_fills r' = r_fills r1 ++ snd (flush_fills (r_max r1) go (r_fmem r1)) /\
    r_height r' = (r_height r1 + r_max r1)%Q }.
Lemma add_row_cases index first del r row a r' : add_row index first del r row = Ok (a, r') ->
  exists r1 evs, scan index first del (y - r_height r)%Q (height - r_height r)%Q (reset r) 0 row r1 evs /\ List.length row = t_cols t /\
    ((a = Cancel /\ first = true /\ (r_max r1 == 0)%Q /\ r' = r1) \/
     (a <> Cancel /\ (first = true -> ~ (r_max r1 == 0)%Q) /\ exists go : bool, a = (if go then Continue else Interrupt) /\ row_ok r (mkRow index first del row evs (r_max r1)) go r')).
Proof.
  unfold Table.add_row. destruct (List.length row =? t_cols t) eqn:El; [|discriminate]. apply Nat.eqb_eq in El. cbn [negb].
  intros H. destruct (add_cells _ _ _ _ _ _ _ _) as [r1|] eqn:Ea in H; [|discriminate]. cbn [bind] in H.
  destruct (add_cells_scan _ _ _ _ _ _ _ _ _ Ea) as (evs & Hs). exists r1, evs. split; [exact Hs|]. split; [exact El|].
  destruct (first && Qeq_bool (r_max r1) 0) eqn:Ef.
  - left. injection H as <- <-. apply andb_prop in Ef as [-> Ef]. apply Qeq_bool_eq in Ef. auto.
  - right.
    assert (Hf : first = true -> ~ (r_max r1 == 0)%Q).
    { intros -> K. apply Qeq_eq_bool in K. rewrite K in Ef. discriminate. }
    fold (can_go r1) in H.
    destruct (pb_fields r1 (List.length row) (x + width)%Q (y - r_height r)%Q (Some (t_bv t index (List.length row))) None) as (v & tp & ti & Ep).
    rewrite Ep in H. cbn [with_borders r_max r_fmem r_parts r_lines r_fills r_hmem r_span r_vert r_height r_colspan r_top r_topint r_isrow r_delayed r_events] in H.
    destruct (flush_fills (r_max r1) (can_go r1) (r_fmem r1)) as [fm fs] eqn:Efl. injection H as <- <-.
    split; [destruct (can_go r1); discriminate|]. split; [exact Hf|]. exists (can_go r1). split; [reflexivity|].
    constructor; [exact El|]. exists r1. cbn. rewrite Efl. repeat split; try reflexivity. exact Hs.
Qed.
Lemma scan_height index first del ya rm r col row r' evs : scan index first del ya rm r col row r' evs -> r_height r' = r_height r.
Proof. induction 1 as [| r col el row r1 r2 evs H1 [] H3 IH|r col el row e r1 r2 evs H1 H2 [] H3 IH]; congruence. Qed.
Lemma scan_events index first del ya rm r col row r' evs : scan index first del ya rm r col row r' evs -> r_events r' = r_events r ++ evs.
Proof.
  induction 1 as [| r col el row r1 r2 evs H1 [] H3 IH|r col el row e r1 r2 evs H1 H2 [] H3 IH].
  - now rewrite app_nil_r.
  - congruence.
  - rewrite IH, pr_events0, <- app_assoc. reflexivity.
Qed.
Lemma scan_parts index first del ya rm r col row r' evs : scan index first del ya rm r col row r' evs -> r_parts r' = r_parts r ++ flat_map (@e_parts E W P F) evs.
Proof.
  induction 1 as [| r col el row r1 r2 evs H1 [] H3 IH|r col el row e r1 r2 evs H1 H2 [] H3 IH].
  - now rewrite app_nil_r.
  - congruence.
  - rewrite IH, pr_parts0, <- app_assoc. reflexivity.
Qed.

(** ** The rows of a run *)
Inductive trace : rstate -> list rowrec -> rstate -> Prop :=
| tr_nil r : trace r [] r
| tr_last r rr go r1 : row_ok r rr go r1 -> trace r [rr] r1
| tr_cons r rr r1 recs r2 : row_ok r rr true r1 -> trace r1 recs r2 -> trace r (rr :: recs) r2.
(** The same rows, as the calls that add them. *)
Inductive added : rstate -> list rowrec -> rstate -> Prop :=
| ad_nil r : added r [] r
| ad_cons r rr a r1 recs r2 : add_row (rr_index rr) (rr_first rr) (rr_del rr) r (rr_row rr) = Ok (a, r1) -> a <> Cancel ->
    r_height r1 = (r_height r + rr_height rr)%Q -> added r1 recs r2 -> added r (rr :: recs) r2.
Lemma row_ok_height r rr go r' : row_ok r rr go r' -> r_height r' = (r_height r + rr_height rr)%Q.
Proof. intros [_ (r2 & Hs & -> & _ & _ & _ & _ & _ & _ & _ & _ & ->)]. rewrite (scan_height _ _ _ _ _ _ _ _ _ _ Hs). reflexivity. Qed.
Definition content_row (rr : rowrec) : Prop :=
  rr_del rr = false /\ exists row, nth_error (t_rows t) (rr_index rr) = Some row /\ rr_row rr = map New row.
Lemma add_rows_trace : forall rows index first r a r1 index' first',
  (forall i, nth_error rows i = nth_error (t_rows t) (index + i)) ->
  add_rows index first r rows = Ok (a, r1, index', first') ->
  (a = Cancel /\ first = true /\ index' = index /\ first' = false /\ exists row evs, nth_error (t_rows t) index = Some row /\
     scan index true false (y - r_height r)%Q (height - r_height r)%Q (reset r) 0 (map New row) r1 evs /\ (r_max r1 == 0)%Q /\ List.length row = t_cols t) \/
  (a <> Cancel /\ exists recs, added r recs r1 /\ trace r recs r1 /\ Forall content_row recs /\ map rr_index recs = seq index (List.length recs) /\
     first' = (match recs with [] => first | _ => false end) /\
     (forall rr, nth_error recs 0 = Some rr -> first = true -> ~ (rr_height rr == 0)%Q) /\
     map rr_first recs = match recs with [] => [] | _ :: l => first :: repeat false (List.length l) end /\
     ((a = Continue /\ index' = (index + List.length recs)%nat /\ List.length rows = List.length recs /\ (recs <> [] -> exists rr r0 recs', recs = recs' ++ [rr] /\ trace r recs' r0 /\ row_ok r0 rr true r1)) \/
      (a = Interrupt /\ S index' = (index + List.length recs)%nat /\ exists rr r0 recs', recs = recs' ++ [rr] /\ trace r recs' r0 /\ row_ok r0 rr false r1))).
Proof.
  induction rows as [|row rows IH]; intros index first r a r1 index' first' Hn H; cbn [Table.add_rows] in H.
  - injection H as <- <- <- <-. right. split; [discriminate|]. exists []. split; [constructor|]. split; [constructor|]. split; [constructor|]. split; [reflexivity|].
    split; [reflexivity|]. split; [discriminate|]. split; [reflexivity|]. left. cbn. repeat split; [lia|congruence].
  - destruct (add_row index first false r (map New row)) as [[a1 r2]|] eqn:Er; [|discriminate]. cbn [bind] in H.
    assert (H0 : nth_error (t_rows t) index = Some row) by (specialize (Hn 0); cbn in Hn; rewrite Nat.add_0_r in Hn; auto).
    destruct (add_row_cases _ _ _ _ _ _ _ Er) as (r3 & evs & Hs & Hlen & [(-> & -> & Hm & ->)|(Hc & Hf & go & -> & Hok)]).
    + injection H as <- <- <- <-. left. repeat split; auto. exists row, evs. rewrite map_length in Hlen. auto.
    + right. assert (Hcr : content_row (mkRow index first false (map New row) evs (r_max r3))) by (split; [reflexivity|eauto]).
      destruct go.
      * apply IH in H; [|intros i; specialize (Hn (S i)); cbn in Hn; rewrite Hn; f_equal; lia].
        destruct H as [(_ & K & _)|(Hc2 & recs & Had & Ht & Hcs & Hi & Hf2 & Hf3 & Hf4 & Hd)]; [discriminate|]. split; [exact Hc2|].
        exists (mkRow index first false (map New row) evs (r_max r3) :: recs). split; [econstructor 2; [exact Er|discriminate|exact (row_ok_height _ _ _ _ Hok)|exact Had]|]. split; [econstructor 3; eassumption|].
        split; [constructor; assumption|]. split; [cbn [map rr_index List.length seq]; now rewrite Hi|].
        split; [rewrite Hf2; destruct recs; reflexivity|]. split; [intros rr [= <-] Ht1; exact (Hf Ht1)|]. split.
        { cbn [map rr_first]. f_equal. rewrite Hf4. destruct recs; reflexivity. }
        destruct Hd as [(-> & -> & Hl & Hx)|(-> & Hl & Hx)].
        -- left. split; [reflexivity|]. split; [cbn; lia|]. split; [cbn; lia|]. intros _. destruct recs as [|rr0 recs0] eqn:Er0.
           { inversion Ht; subst. eexists _, r, []. split; [reflexivity|]. split; [constructor|exact Hok]. }
           destruct Hx as (rr & r0 & recs' & E1 & E2 & E3); [discriminate|]. rewrite E1. exists rr, r0, (mkRow index first false (map New row) evs (r_max r3) :: recs').
           split; [reflexivity|]. split; [econstructor 3; eassumption|exact E3].
        -- right. split; [reflexivity|]. split; [cbn; lia|]. destruct Hx as (rr & r0 & recs' & E1 & E2 & E3).
           exists rr, r0, (mkRow index first false (map New row) evs (r_max r3) :: recs'). split; [now rewrite E1|].
           split; [econstructor 3; eassumption|exact E3].
      * injection H as <- <- <- <-. split; [discriminate|]. exists [mkRow index first false (map New row) evs (r_max r3)].
        split; [econstructor 2; [exact Er|discriminate|exact (row_ok_height _ _ _ _ Hok)|constructor]|]. split; [econstructor 2; eassumption|]. split; [repeat constructor; apply Hcr|]. split; [reflexivity|]. split; [reflexivity|].
        split; [intros rr [= <-] Ht1; exact (Hf Ht1)|]. split; [reflexivity|]. right. split; [reflexivity|]. split; [cbn; lia|].
        eexists _, r, []. split; [reflexivity|]. split; [constructor|exact Hok].
Qed.

Lemma nth_skipn {A} (l : list A) n i : nth_error (skipn n l) i = nth_error l (n + i).
Proof. revert l. induction n as [|n IH]; intros [|a l]; cbn; try reflexivity; [now destruct i|apply IH]. Qed.
Lemma nth_tl {A} (l : list A) n i : nth_error (tl (skipn n l)) i = nth_error l (S n + i).
Proof.
  assert (K : tl (skipn n l) = skipn (S n) l) by (revert l; induction n as [|n IH]; intros [|a l]; cbn; try reflexivity; apply IH).
  rewrite K. apply nth_skipn.
Qed.
Lemma last_borders_fields index r : let r2 := last_borders b_eqb t x y width index r in
  r_parts r2 = r_parts r /\ r_fills r2 = r_fills r /\ r_height r2 = r_height r /\ r_delayed r2 = r_delayed r /\ r_events r2 = r_events r.
Proof.
  unfold last_borders. cbn [r_parts r_fills r_height r_delayed r_events].
  assert (Hf : forall l ya rr, exists v tp ti, fold_left (fun r col => process_borders r col (x + sum_widths 0 col * width)%Q ya None (Some (t_bh t index col))) l rr = with_borders rr v tp ti).
  { induction l as [|c l IH]; intros ya rr; cbn [fold_left].
    - exists (r_vert rr), (r_top rr), (r_topint rr). destruct rr; reflexivity.
    - destruct (pb_fields rr c (x + sum_widths 0 c * width)%Q ya None (Some (t_bh t index c))) as (v & tp & ti & ->).
      destruct (IH ya (with_borders rr v tp ti)) as (v' & tp' & ti' & ->). eexists _, _, _. reflexivity. }
  match goal with |- context [fold_left ?f ?l ?r0] => destruct (Hf l (y - r_height r)%Q r0) as (v & tp & ti & ->) end.
  match goal with |- context [Table.process_borders _ _ _ ?rr ?c ?xa ?ya ?b1 ?b2] => destruct (pb_fields rr c xa ya b1 b2) as (v' & tp' & ti' & ->) end.
  cbn. auto.
Qed.
Notation tstate := (@tstate W F).
Notation output := (@output E W P F B).
(** The rows a run adds: first the unfinished cells of the row where the last
    run ended, then rows of the table, in order. *)
Record adds (s s' : tstate) (o : output) (recs : list rowrec) (r1 : rstate) : Prop := mkAdds {
  ad_trace : trace (empty_run t (t_delayed s)) recs r1;
  ad_parts : o_parts o = r_parts r1; ad_events : o_events o = r_events r1; ad_height : o_height o = r_height r1; ad_fills : o_fills o = r_fills r1;
  ad_delayed : t_delayed s' = r_delayed r1;
  ad_index : map rr_index recs = seq (t_index s) (List.length recs);
  ad_fresh : t_delayed s = [] -> Forall content_row recs;
  ad_cont : t_delayed s <> [] -> exists rr recs', recs = rr :: recs' /\ rr_del rr = true /\ rr_row rr = delayed_row t (t_delayed s) /\ Forall content_row recs';
  ad_first : t_first s' = match recs with [] => t_first s | _ => false end;
  ad_firsts : map rr_first recs = match recs with [] => [] | _ :: l => t_first s :: repeat false (List.length l) end;
  ad_max : forall rr, nth_error recs 0 = Some rr -> t_delayed s = [] -> t_first s = true -> ~ (rr_height rr == 0)%Q;
  ad_end : (t_index s' = t_index s + List.length recs /\ (t_index s <= List.length (t_rows t) -> t_index s' >= List.length (t_rows t)) /\
              (recs <> [] -> exists rr r0 recs', recs = recs' ++ [rr] /\ trace (empty_run t (t_delayed s)) recs' r0 /\ row_ok r0 rr true r1)) \/
           (S (t_index s') = t_index s + List.length recs /\
              exists rr r0 recs', recs = recs' ++ [rr] /\ trace (empty_run t (t_delayed s)) recs' r0 /\ row_ok r0 rr false r1);
  ad_fin : t_finished s' = ((List.length (t_rows t) <=? t_index s') && match t_delayed s' with [] => true | _ => false end || t_finished s)%bool }.
Definition cancels (s s' : tstate) (o : output) : Prop :=
  t_delayed s = [] /\ t_first s = true /\ exists row r1 evs,
    nth_error (t_rows t) (t_index s) = Some row /\ List.length row = t_cols t /\
    scan (t_index s) true false (y - 0)%Q (height - 0)%Q (reset (empty_run t [])) 0 (map New row) r1 evs /\ (r_max r1 == 0)%Q /\
    o_parts o = [] /\ o_fills o = [] /\ o_height o = 0%Q /\ o_events o = evs /\ s' = mkT (t_index s) (r_delayed r1) false (t_finished s).
Theorem run_cases_full s s' o : (t_first s = true -> t_delayed s = []) -> run s = Ok (s', o) ->
  (o_cancel o = true /\ cancels s s' o) \/
  (o_cancel o = false /\ exists recs r1, (added (empty_run t (t_delayed s)) recs r1 /\ o_lines o = r_lines (last_borders b_eqb t x y width (t_index s') r1)) /\
     adds s s' o recs r1).
Proof.
  unfold Table.run. intros Hfirst H.
  assert (Hn : forall i, nth_error (skipn (t_index s) (t_rows t)) i = nth_error (t_rows t) (t_index s + i)) by (intros i; apply nth_skipn).
  assert (Hn' : forall i, nth_error (tl (skipn (t_index s) (t_rows t))) i = nth_error (t_rows t) (S (t_index s) + i)) by (intros i; apply nth_tl).
  destruct (t_delayed s) as [|d0 dl] eqn:Ed.
  - destruct (add_rows (t_index s) (t_first s) (empty_run t []) (skipn (t_index s) (t_rows t))) as [[[[a r1] index'] first']|] eqn:Ea; [|discriminate].
    cbn [bind] in H.
    destruct (add_rows_trace _ _ _ _ _ _ _ _ Hn Ea) as [(-> & Hf & -> & -> & row & evs & H1 & H2 & H3 & H4)|(Hc & recs & H0 & H1 & H2 & H3 & H4 & H5 & H5b & H6)].
    + left. injection H as <- <-. split; [reflexivity|]. split; [exact Ed|]. split; [exact Hf|]. exists row, r1, evs.
      rewrite (scan_events _ _ _ _ _ _ _ _ _ _ H2), (scan_height _ _ _ _ _ _ _ _ _ _ H2). cbn. auto 12.
    + right. destruct (last_borders_fields index' r1) as (F1 & F2 & F3 & F4 & F5).
      assert (H' : Ok (mkT index' (r_delayed (last_borders b_eqb t x y width index' r1)) first'
                     (((List.length (t_rows t) <=? index') && match r_delayed (last_borders b_eqb t x y width index' r1) with [] => true | _ => false end) || t_finished s),
                   mkOut (r_parts (last_borders b_eqb t x y width index' r1)) (r_lines (last_borders b_eqb t x y width index' r1))
                     (r_fills (last_borders b_eqb t x y width index' r1)) (r_height (last_borders b_eqb t x y width index' r1))
                     (r_events (last_borders b_eqb t x y width index' r1)) false) = Ok (s', o)) by (destruct a; [exact H|exact H|congruence]).
      clear H. rewrite F1, F2, F3, F4, F5 in H'. injection H' as <- <-. split; [reflexivity|]. exists recs, r1. split; [split; [exact H0|reflexivity]|].
      constructor; cbn; try reflexivity; try assumption; rewrite ?Ed.
      * exact H1.
      * intros _. exact H2.
      * congruence.
      * intros rr Hr _. exact (H5 rr Hr).
      * destruct H6 as [(-> & -> & Hl & Hx)|(-> & Hl & Hx)]; [left|right; auto]. split; [reflexivity|]. split; [|exact Hx].
        rewrite skipn_length in Hl. lia.
  - rewrite <- Ed in *. destruct (add_row (t_index s) (t_first s) true (empty_run t (t_delayed s)) (delayed_row t (t_delayed s))) as [[a1 r2]|] eqn:Er; [|discriminate].
    cbn [bind] in H.
    destruct (add_row_cases _ _ _ _ _ _ _ Er) as (r3 & evs & Hs & Hlen & Hcase).
    destruct (match a1 with Continue => add_rows (S (t_index s)) false r2 (tl (skipn (t_index s) (t_rows t))) | _ => Ok (Interrupt, r2, t_index s, false) end)
      as [[[[a r1] index'] first']|] eqn:Ea; [|discriminate]. cbn [bind] in H.
    assert (Hnf : t_first s = false) by (destruct (t_first s); [specialize (Hfirst eq_refl); congruence|reflexivity]).
    destruct Hcase as [(_ & K & _)|(_ & _ & go & -> & Hok)]; [congruence|].
    destruct go.
    + destruct (add_rows_trace _ _ _ _ _ _ _ _ Hn' Ea) as [(_ & K & _)|(Hc & recs & H0 & H1 & H2 & H3 & H4 & H5 & H5b & H6)]; [discriminate|].
      right. destruct (last_borders_fields index' r1) as (F1 & F2 & F3 & F4 & F5).
      assert (H' : Ok (mkT index' (r_delayed (last_borders b_eqb t x y width index' r1)) first'
                     (((List.length (t_rows t) <=? index') && match r_delayed (last_borders b_eqb t x y width index' r1) with [] => true | _ => false end) || t_finished s),
                   mkOut (r_parts (last_borders b_eqb t x y width index' r1)) (r_lines (last_borders b_eqb t x y width index' r1))
                     (r_fills (last_borders b_eqb t x y width index' r1)) (r_height (last_borders b_eqb t x y width index' r1))
                     (r_events (last_borders b_eqb t x y width index' r1)) false) = Ok (s', o)) by (destruct a; [exact H|exact H|congruence]).
      clear H. rewrite F1, F2, F3, F4, F5 in H'. injection H' as <- <-. split; [reflexivity|].
      exists (mkRow (t_index s) (t_first s) true (delayed_row t (t_delayed s)) evs (r_max r3) :: recs), r1.
      split; [split; [econstructor 2; [exact Er|discriminate|exact (row_ok_height _ _ _ _ Hok)|exact H0]|reflexivity]|].
      constructor; cbn [t_delayed t_index t_first t_finished o_parts o_lines o_fills o_height o_events o_cancel]; try reflexivity; try assumption.
      * econstructor 3; eassumption.
      * cbn [map rr_index List.length seq]. now rewrite H3.
      * congruence.
      * intros _. eexists _, recs. split; [reflexivity|]. auto.
      * rewrite H4. destruct recs; reflexivity.
      * cbn [map rr_first]. f_equal. rewrite H5b. destruct recs; reflexivity.
      * congruence.
      * destruct H6 as [(-> & -> & Hl & Hx)|(-> & Hl & Hx)].
        -- left. split; [cbn; lia|]. split; [assert (Hl' : List.length (tl (skipn (t_index s) (t_rows t))) = List.length (t_rows t) - S (t_index s))
             by (replace (tl (skipn (t_index s) (t_rows t))) with (skipn (S (t_index s)) (t_rows t)); [apply skipn_length|];
                 generalize (t_rows t) (t_index s); clear; intros l n; revert l; induction n as [|n IH]; intros [|a l]; cbn; try reflexivity; apply IH); lia|].
           intros _. destruct recs as [|rr0 recs0] eqn:E0.
           { inversion H1; subst. eexists _, _, []. split; [reflexivity|]. split; [constructor|exact Hok]. }
           destruct Hx as (rr & r0 & recs' & E1 & E2 & E3); [discriminate|]. rewrite E1. eexists rr, r0, (_ :: recs').
           split; [reflexivity|]. split; [econstructor 3; eassumption|exact E3].
        -- right. split; [cbn; lia|]. destruct Hx as (rr & r0 & recs' & E1 & E2 & E3).
           eexists rr, r0, (_ :: recs'). split; [now rewrite E1|]. split; [econstructor 3; eassumption|exact E3].
    + injection Ea as <- <- <- <-. destruct (last_borders_fields (t_index s) r2) as (F1 & F2 & F3 & F4 & F5). cbv zeta in H.
      rewrite F1, F2, F3, F4, F5 in H. injection H as <- <-. right. split; [reflexivity|].
      exists [mkRow (t_index s) (t_first s) true (delayed_row t (t_delayed s)) evs (r_max r3)], r2.
      split; [split; [econstructor 2; [exact Er|discriminate|exact (row_ok_height _ _ _ _ Hok)|constructor]|reflexivity]|].
      constructor; cbn [t_delayed t_index t_first t_finished o_parts o_lines o_fills o_height o_events o_cancel]; try reflexivity; try assumption.
      * econstructor 2; eassumption.
      * congruence.
      * intros _. eexists _, []. split; [reflexivity|]. auto.
      * congruence.
      * right. split; [cbn; lia|]. eexists _, _, []. split; [reflexivity|]. split; [constructor|exact Hok].
Qed.
Theorem run_cases s s' o : (t_first s = true -> t_delayed s = []) -> run s = Ok (s', o) ->
  (o_cancel o = true /\ cancels s s' o) \/ (o_cancel o = false /\ exists recs r1, adds s s' o recs r1).
Proof. intros Hr H. destruct (run_cases_full s s' o Hr H) as [K|(K & recs & r1 & _ & Ha)]; [left; exact K|right; eauto]. Qed.
End Proofs.
