(** The borders and fills a table is given (property C63). *)
From Coq Require Import String QArith ZArith Lia.
From Verif Require Import Py PyStr Parser StreamProofs Gfx Ranges Color Table TableDefs.
Open Scope list_scope.
Open Scope nat_scope.

(** The border of the style of a table: half a point wide, black and solid for
    what the style does not say. *)
Definition style_border (st : bdef) (d : bord) : Prop :=
  b_width d = match bd_width st with Some w => w | None => (1 # 2)%Q end /\
  match bd_color st with Some c => parse_color c = Ok (fst (b_kind d)) | None => fst (b_kind d) = Some [0]%Q end /\
  snd (b_kind d) = match bd_style st with Some y => y | None => [115; 111; 108; 105; 100]%N (* solid *) end.
Lemma style_border_ok st d : default_border st = Ok d <-> style_border st d.
Proof.
  unfold default_border, style_border. destruct d as [w [c y]]. cbn [b_width b_kind fst snd]. destruct (bd_color st) as [col|].
  - destruct (parse_color col) as [q|e]; cbn [bind]; (split; [intros H; try discriminate|intros (H1 & H2 & H3); try discriminate]).
    + injection H as <- <- <-. auto.
    + injection H2 as <-. subst. reflexivity.
  - cbn [parse_color bind]. split; [intros H; injection H as <- <- <-; auto|]. intros (-> & -> & ->). reflexivity.
Qed.

(** The border at a place is that of the last definition that has it, with the
    style of the table for what the definition does not say; where there is no
    definition, that of the style of the table.  The same for the fills. *)
Theorem C63_definitions_partial {E} (rows : list (list (@cell E cspec))) widths blank st specs fspecs :
  let nrows := List.length rows in let cols := List.length (hd [] rows) in
  (forall s, In s specs -> border_ok nrows cols s) -> (forall s, In s fspecs -> area_ok (fs_area s) nrows cols) ->
  forall r, make_table rows widths blank st (map write_border specs) (map write_fill fspecs) = r ->
  (0 < cols -> (exists ws, col_widths cols widths = Ok ws) -> (forall c, bd_color st = Some c -> exists q, parse_color c = Ok q) -> exists t, r = Ok (Some t)) /\
  forall t, r = Ok (Some t) -> exists d, style_border st d /\ t_rows t = rows /\ t_cols t = cols /\ col_widths cols widths = Ok (t_widths t) /\
    (forall i j, i < nrows -> j < S cols ->
       (forall s, last_with (chosen nrows cols true i j) specs s -> looks d s (t_bv t i j)) /\
       ((forall s, In s specs -> ~ chosen nrows cols true i j s) -> t_bv t i j = d)) /\
    (forall i j, i < S nrows -> j < cols ->
       (forall s, last_with (chosen nrows cols false i j) specs s -> looks d s (t_bh t i j)) /\
       ((forall s, In s specs -> ~ chosen nrows cols false i j s) -> t_bh t i j = d)) /\
    (forall i j, i < nrows -> j < cols ->
       (forall s, last_with (fun s => in_area (fs_area s) nrows cols i j) fspecs s -> t_fills t i j = fs_color s) /\
       ((forall s, In s fspecs -> ~ in_area (fs_area s) nrows cols i j) -> t_fills t i j = None)).
Proof.
  intros nrows cols Hb Hf r Hr.
  assert (Hmake : forall row rest, rows = row :: rest -> row <> [] -> r =
    (do ws <- col_widths cols widths; do d <- default_border st;
     do (bh, bv) <- setup_borders (Z.of_nat nrows) (Z.of_nat cols) d (map write_border specs);
     do fs <- setup_fills (Z.of_nat nrows) (Z.of_nat cols) (map write_fill fspecs);
     Ok (Some (mkTable rows cols ws blank (get_border d bv) (get_border d bh)
                  (fun i j => match pget (Z.of_nat i) (Z.of_nat j) fs with Some c => c | None => None end))))).
  { intros row rest E0 Hne. rewrite <- Hr. unfold make_table, cols, nrows. rewrite E0. cbn [hd]. destruct row as [|c row]; [congruence|]. reflexivity. }
  destruct (fills_ok_ind nrows cols fspecs Hf) as (fs & F1 & F2).
  split.
  - intros Hc (ws & Hw) Hcol.
    assert (Hd : exists d, default_border st = Ok d).
    { unfold default_border. destruct (bd_color st) as [col|]; [destruct (Hcol col eq_refl) as [q ->]|cbn [parse_color]]; cbn [bind]; eauto. }
    destruct Hd as (d & Hd). destruct (borders_ok_ind nrows cols d specs Hb) as (bh & bv & B1 & B2 & B3).
    destruct rows as [|row rest] eqn:E0; [cbn in Hc; unfold cols in Hc; cbn in Hc; lia|]. rewrite (Hmake row rest eq_refl); [|intros ->; unfold cols in Hc; cbn in Hc; lia].
    rewrite Hw. cbn [bind]. rewrite Hd. cbn [bind]. rewrite B1. cbn [bind]. rewrite F1. cbn [bind]. eauto.
  - intros t Ht. destruct rows as [|[|c row] rest] eqn:E0; [rewrite <- Hr in Ht; discriminate|rewrite <- Hr in Ht; discriminate|].
    rewrite (Hmake _ _ eq_refl) in Ht by discriminate. destruct (col_widths cols widths) as [ws|] eqn:Ew; [|discriminate]. cbn [bind] in Ht.
    destruct (default_border st) as [d|] eqn:Ed; [|discriminate]. cbn [bind] in Ht. destruct (borders_ok_ind nrows cols d specs Hb) as (bh & bv & B1 & B2 & B3).
    rewrite B1 in Ht. cbn [bind] in Ht. rewrite F1 in Ht. cbn [bind] in Ht. injection Ht as <-. exists d. cbn [t_rows t_cols t_widths t_bv t_bh t_fills].
    split; [apply style_border_ok; exact Ed|]. do 3 (split; [reflexivity|]). split; [exact B3|]. split; [exact B2|]. exact F2.
Qed.
Print Assumptions C63_definitions_partial.

(** ** Case *)
(** Two columns and three rows.  "v:;1" of width 2; then "h0,-1" in red. *)
Definition d_cell : @cell unit cspec := mkCell 1 1 (mkCS 5 5 5 5 None) tt.
Definition d_specs : list bspec :=
  [mkSpec 118 (Cells (DSlice (0, 0) (0, 0) None None) (DList [((0, 0), 1%Z)])) (Some 2%Q) None None;
   mkSpec 104 (Rows (DList [((0, 0), 0%Z); ((0, 0), (-1)%Z)])) None (Some (SText (lit "red"))) None].
Definition d_fills : list fspec := [mkFSpec (Rows (DStep (0, 0) (0, 0) (0, 0) None None (Some 2%Z))) (Some (SNum 1%Q))].
Example C63_applies : (forall s, In s d_specs -> border_ok 3 2 s) /\ (forall s, In s d_fills -> area_ok (fs_area s) 3 2) /\
  map (fun s => bd_pos (write_border s)) d_specs = [Some (lit "v:;1"); Some (lit "h0,-1")] /\ map (fun s => fd_pos (write_fill s)) d_fills = [Some (lit "::2")] /\
  exists t, make_table [[d_cell; d_cell]; [d_cell; d_cell]; [d_cell; d_cell]] None d_cell (mkDef None None None None) (map write_border d_specs) (map write_fill d_fills) = Ok (Some t) /\
    map (fun i => map (fun j => b_width (t_bv t i j)) [0; 1; 2]) [0; 1; 2] = [[1 # 2; 2; 1 # 2]; [1 # 2; 2; 1 # 2]; [1 # 2; 2; 1 # 2]]%Q /\
    map (fun i => fst (b_kind (t_bh t i 0))) [0; 1; 2; 3] = [Some [1; 0; 0]; Some [0]; Some [0]; Some [1; 0; 0]]%Q /\
    map (fun i => t_fills t i 1) [0; 1; 2] = [Some (SNum 1%Q); None; Some (SNum 1%Q)].
Proof.
  split; [|split; [|split; [reflexivity|split; [reflexivity|]]]].
  - intros s [<-|[<-|[]]]; (split; [cbn; try tauto; try (split; [exact I|discriminate]); try discriminate|cbn; try exact I; eexists; vm_compute; reflexivity]).
  - intros s [<-|[]]. cbn. lia.
  - eexists. split; [vm_compute; reflexivity|]. split; [reflexivity|]. split; reflexivity.
Qed.
