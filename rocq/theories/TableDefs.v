(** Model of the constructor of tables (pdfme/table.py): the borders and the
    fills that are given for ranges of positions. *)
From Coq Require Import String QArith ZArith Lia.
From Verif Require Import Py PyStr Parser StreamProofs Gfx Ranges Color Table.
Open Scope list_scope.
Open Scope nat_scope.

(** ** Model *)
(** A dict of dicts by row and column, [d.setdefault(i, {})[j] = v]: one dict by
    pairs; the newest is first. *)
Section Places.
Context {V : Type}.
Definition places := list ((Z * Z) * V).
Fixpoint pget (i j : Z) (d : places) : option V :=
  match d with [] => None | ((a, b), v) :: r => if ((i =? a) && (j =? b))%Z then Some v else pget i j r end.
Definition pset_all (l : list (Z * Z)) (v : V) (d : places) : places := fold_left (fun d p => (p, v) :: d) l d.
End Places.
Arguments places : clear implicits.

(** A dict of [borders]: the keys that were given.  The same without [pos] for
    [border_width], [border_color] and [border_style] of the style of the
    table. *)
Record bdef := mkDef { bd_width : option Q; bd_color : option cspec; bd_style : option str; bd_pos : option str }.
(** Colour and style of a border. *)
Definition look : Type := option (list Q) * str.
Notation bord := (@border look).
(** table.py 251-259 [set_default_border]. *)
Definition default_border (st : bdef) : res bord :=
  do c <- parse_color (match bd_color st with Some c => c | None => SNum 0 end);
  Ok (mkB (match bd_width st with Some w => w | None => (1 # 2)%Q end) (c, match bd_style st with Some s => s | None => lit "solid" end)).
(** table.py 330-332: a definition over the default. *)
Definition merge (d : bord) (b : bdef) : res bord :=
  do c <- (match bd_color b with Some c => parse_color c | None => Ok (fst (b_kind d)) end);
  Ok (mkB (match bd_width b with Some w => w | None => b_width d end) (c, match bd_style b with Some s => s | None => snd (b_kind d) end)).
(** table.py 318-341 [setup_borders]: the horizontal ones and the vertical
    ones. *)
Definition add_border (nrows cols : Z) (d : bord) (st : places bord * places bord) (b : bdef) : res (places bord * places bord) :=
  let '(bh, bv) := st in
  do border <- merge d b;
  match bd_pos b with
  | None => Ok (bh, bv)
  | Some [] => Err IndexError
  | Some (k :: pos) =>
      if ((k =? 118) || (k =? 86))%N then do l <- parse_pos_string pos (nrows, cols + 1)%Z; Ok (bh, pset_all l border bv)
      else do l <- parse_pos_string pos (nrows + 1, cols)%Z; Ok (pset_all l border bh, bv)
  end.
Fixpoint fold_res {A S} (f : S -> A -> res S) (l : list A) (s : S) : res S :=
  match l with [] => Ok s | a :: r => do s1 <- f s a; fold_res f r s1 end.
Definition setup_borders (nrows cols : Z) (d : bord) (defs : list bdef) : res (places bord * places bord) :=
  fold_res (add_border nrows cols d) defs ([], []).
(** table.py 343-359 [get_border]. *)
Definition get_border (d : bord) (b : places bord) (i j : nat) : bord :=
  match pget (Z.of_nat i) (Z.of_nat j) b with Some v => v | None => d end.
(** A dict of [fills]; the [color] has to be there.  [None] is a colour that is
    not there. *)
Record fdef := mkFDef { fd_color : option cspec; fd_pos : option str }.
(** table.py 361-378 [setup_fills]. *)
Definition add_fill (nrows cols : Z) (st : places (option cspec)) (f : fdef) : res (places (option cspec)) :=
  match fd_pos f with
  | None => Ok st
  | Some pos => do l <- parse_pos_string pos (nrows, cols); Ok (pset_all l (fd_color f) st)
  end.
Definition setup_fills (nrows cols : Z) (fills : list fdef) : res (places (option cspec)) := fold_res (add_fill nrows cols) fills [].
(** table.py 175-198 [__init__], after the checks of types.  Nothing is there
    for a table without rows or columns.  The cells are given as the model of
    [get_cell_style] gives them, the style of the table with its borders apart. *)
Definition make_table {E} (rows : list (list (@cell E cspec))) (widths : option (list Q)) (blank : @cell E cspec) (st : bdef) (borders : list bdef)
  (fills : list fdef) : res (option (table E cspec look)) :=
  match rows with
  | [] | [] :: _ => Ok None
  | row :: _ =>
      let cols := List.length row in let nrows := Z.of_nat (List.length rows) in
      do ws <- col_widths cols widths;
      do d <- default_border st;
      do (bh, bv) <- setup_borders nrows (Z.of_nat cols) d borders;
      do fs <- setup_fills nrows (Z.of_nat cols) fills;
      Ok (Some (mkTable rows cols ws blank (get_border d bv) (get_border d bh)
                  (fun i j => match pget (Z.of_nat i) (Z.of_nat j) fs with Some c => c | None => None end)))
  end.

(** ** Specification *)
(** A definition of the user: which positions, written as documented. *)
Inductive area := Rows (d : dim) | Cells (d0 d1 : dim).
Definition write_area (a : area) : str := match a with Rows d => render_dim d | Cells d0 d1 => join 59 [render_dim d0; render_dim d1] end.
Definition in_area (a : area) (nr nc i j : nat) : Prop :=
  match a with
  | Rows d => in_dim d (Z.of_nat nr) (Z.of_nat i)
  | Cells d0 d1 => in_dim d0 (Z.of_nat nr) (Z.of_nat i) /\ in_dim d1 (Z.of_nat nc) (Z.of_nat j)
  end.
Definition area_ok (a : area) (nr nc : nat) : Prop :=
  match a with Rows d => valid_dim d (Z.of_nat nr) | Cells d0 d1 => valid_dim d0 (Z.of_nat nr) /\ valid_dim d1 (Z.of_nat nc) end.
(** The last one of a list for which [p] holds. *)
Definition last_with {A} (p : A -> Prop) (l : list A) (x : A) : Prop := exists a b, l = a ++ x :: b /\ p x /\ forall y, In y b -> ~ p y.

(** ** Proofs *)
Lemma pget_app {V} i j l (v : V) d : pget i j (pset_all l v d) = pget i j d \/ pget i j (pset_all l v d) = Some v.
Proof.
  unfold pset_all. revert d. induction l as [|p l IH]; intros d; cbn [fold_left]; [auto|]. destruct (IH ((p, v) :: d)) as [->|K]; [|auto].
  cbn [pget]. destruct p as [a b]. destruct (_ && _); auto.
Qed.
Lemma pget_set {V} i j l (v : V) d : pget i j (pset_all l v d) = if existsb (fun p => ((i =? fst p) && (j =? snd p))%Z) l then Some v else pget i j d.
Proof.
  unfold pset_all. revert d. induction l as [|[a b] l IH]; intros d; cbn [fold_left existsb fst snd]; [reflexivity|]. rewrite IH. cbn [pget].
  destruct (existsb _ l); [now rewrite orb_true_r|]. rewrite orb_false_r. destruct (_ && _); reflexivity.
Qed.
Lemma pget_in {V} i j l (v : V) d : (In (i, j) l -> pget i j (pset_all l v d) = Some v) /\ (~ In (i, j) l -> pget i j (pset_all l v d) = pget i j d).
Proof.
  rewrite pget_set. destruct (existsb _ l) eqn:Ex.
  - split; [reflexivity|]. intros K. exfalso. apply K. apply existsb_exists in Ex as ([a b] & K1 & K2). apply andb_prop in K2 as [K2 K3].
    apply Z.eqb_eq in K2, K3. cbn in *. now subst.
  - split; [|reflexivity]. intros K. exfalso. assert (existsb (fun p => ((i =? fst p) && (j =? snd p))%Z) l = true); [|congruence].
    apply existsb_exists. exists (i, j). split; [exact K|]. cbn. now rewrite !Z.eqb_refl.
Qed.
Lemma area_parse a nr nc : area_ok a nr nc -> exists l, parse_pos_string (write_area a) (Z.of_nat nr, Z.of_nat nc) = Ok l /\
  forall i j, i < nr -> j < nc -> (In (Z.of_nat i, Z.of_nat j) l <-> in_area a nr nc i j).
Proof.
  destruct a as [d|d0 d1]; cbn [area_ok write_area in_area].
  - intros H. destruct (pos_string_one_dim d (Z.of_nat nr) (Z.of_nat nc) ltac:(lia) ltac:(lia) H) as (l & K1 & K2). exists l. split; [exact K1|].
    intros i j Hi Hj. apply K2; lia.
  - intros [H0 H1]. destruct (pos_string_spec d0 d1 (Z.of_nat nr) (Z.of_nat nc) ltac:(lia) ltac:(lia) H0 H1) as (l & K1 & K2). exists l. split; [exact K1|].
    intros i j Hi Hj. apply K2; lia.
Qed.
Lemma fold_res_app {A S} (f : S -> A -> res S) l1 l2 s : fold_res f (l1 ++ l2) s = (do s1 <- fold_res f l1 s; fold_res f l2 s1).
Proof. revert s. induction l1 as [|a l1 IH]; intros s; cbn [app fold_res bind]; [reflexivity|]. destruct (f s a); cbn [bind]; [apply IH|reflexivity]. Qed.

(** A border that the user defines; vertical or horizontal. *)
Record bspec := mkSpec { sp_letter : N; sp_area : area; sp_width : option Q; sp_color : option cspec; sp_style : option str }.
Definition vertical (s : bspec) : bool := ((sp_letter s =? 118) || (sp_letter s =? 86))%N.
Definition write_border (s : bspec) : bdef := mkDef (sp_width s) (sp_color s) (sp_style s) (Some (sp_letter s :: write_area (sp_area s))).
(** There are as many vertical borders in a row as columns and one more, and as
    many horizontal ones in a column as rows and one more. *)
Definition v_rows (vert : bool) (nrows : nat) : nat := if vert then nrows else S nrows.
Definition v_cols (vert : bool) (cols : nat) : nat := if vert then S cols else cols.
Definition border_ok (nrows cols : nat) (s : bspec) : Prop :=
  area_ok (sp_area s) (v_rows (vertical s) nrows) (v_cols (vertical s) cols) /\
  match sp_color s with Some c => exists q, parse_color c = Ok q | None => True end.
Definition chosen (nrows cols : nat) (vert : bool) (i j : nat) (s : bspec) : Prop :=
  vertical s = vert /\ in_area (sp_area s) (v_rows vert nrows) (v_cols vert cols) i j.
(** The border has what the definition says, and the rest from the default. *)
Definition looks (d : bord) (s : bspec) (b : bord) : Prop :=
  b_width b = match sp_width s with Some w => w | None => b_width d end /\
  match sp_color s with Some c => parse_color c = Ok (fst (b_kind b)) | None => fst (b_kind b) = fst (b_kind d) end /\
  snd (b_kind b) = match sp_style s with Some y => y | None => snd (b_kind d) end.
Definition borders_are (nrows cols : nat) (d : bord) (specs : list bspec) (vert : bool) (pl : places bord) : Prop :=
  forall i j, i < v_rows vert nrows -> j < v_cols vert cols ->
    (forall s, last_with (chosen nrows cols vert i j) specs s -> looks d s (get_border d pl i j)) /\
    ((forall s, In s specs -> ~ chosen nrows cols vert i j s) -> get_border d pl i j = d).
Lemma last_snoc {A} (p : A -> Prop) l (a x : A) : last_with p (l ++ [a]) x -> (p a /\ x = a) \/ (~ p a /\ last_with p l x).
Proof.
  intros (u & v & E0 & Hp & Hv). destruct v as [|w v] using rev_ind.
  - apply app_inj_tail in E0 as [-> ->]. left. auto.
  - clear IHv. rewrite app_comm_cons, app_assoc in E0. apply app_inj_tail in E0 as [-> ->]. right. split; [apply Hv, in_or_app; right; now left|].
    exists u, v. split; [reflexivity|]. split; [exact Hp|]. intros y Hy. apply Hv, in_or_app. now left.
Qed.
Lemma merge_looks d s : (match sp_color s with Some c => exists q, parse_color c = Ok q | None => True end) -> exists b, merge d (write_border s) = Ok b /\ looks d s b.
Proof.
  intros H. unfold merge, write_border. cbn [bd_color bd_width bd_style]. destruct (sp_color s) as [c|] eqn:Ec.
  - destruct H as (q & H). rewrite H. cbn [bind]. eexists. split; [reflexivity|]. unfold looks. cbn. rewrite Ec. auto.
  - cbn [bind]. eexists. split; [reflexivity|]. unfold looks. cbn. rewrite Ec. auto.
Qed.
Lemma borders_ok_ind nrows cols d : forall specs, (forall s, In s specs -> border_ok nrows cols s) ->
  exists bh bv, setup_borders (Z.of_nat nrows) (Z.of_nat cols) d (map write_border specs) = Ok (bh, bv) /\
    borders_are nrows cols d specs false bh /\ borders_are nrows cols d specs true bv.
Proof.
  induction specs as [|s specs IH] using rev_ind; intros Hok.
  - exists [], []. split; [reflexivity|]. split; (intros i j _ _; split; [intros s (a & b & K & _); destruct a; discriminate|reflexivity]).
  - destruct IH as (bh & bv & K1 & K2 & K3); [intros s' Hs'; apply Hok, in_or_app; now left|].
    destruct (Hok s) as [Ha Hc]; [apply in_or_app; right; now left|]. destruct (merge_looks d s Hc) as (b & Hb & Hl).
    assert (Hkeep : forall vert pl, vertical s <> vert -> borders_are nrows cols d specs vert pl -> borders_are nrows cols d (specs ++ [s]) vert pl).
    { intros vert pl Hv HB i j Hi Hj. destruct (HB i j Hi Hj) as [B1 B2]. split.
      - intros s' Hs'. apply last_snoc in Hs' as [[[K _] _]|[_ K]]; [contradiction|]. apply B1, K.
      - intros K. apply B2. intros s' Hs'. apply K, in_or_app. now left. }
    assert (Hnew : forall pl l, borders_are nrows cols d specs (vertical s) pl ->
      (forall i j, i < v_rows (vertical s) nrows -> j < v_cols (vertical s) cols -> (In (Z.of_nat i, Z.of_nat j) l <-> in_area (sp_area s) (v_rows (vertical s) nrows) (v_cols (vertical s) cols) i j)) ->
      borders_are nrows cols d (specs ++ [s]) (vertical s) (pset_all l b pl)).
    { intros pl l HB Hin i j Hi Hj. destruct (HB i j Hi Hj) as [B1 B2]. specialize (Hin i j Hi Hj). destruct (pget_in (Z.of_nat i) (Z.of_nat j) l b pl) as [P1 P2]. split.
      - intros s' Hs'. apply last_snoc in Hs' as [[[_ K] ->]|[K1' K]].
        + unfold get_border. rewrite P1 by (apply Hin, K). exact Hl.
        + specialize (B1 s' K). unfold get_border in *. rewrite P2; [exact B1|]. intros Q1. apply K1'. split; [reflexivity|]. apply Hin, Q1.
      - intros K. unfold get_border in *. rewrite P2; [apply B2; intros s' Hs'; apply K, in_or_app; now left|].
        intros Q1. apply (K s); [apply in_or_app; right; now left|]. split; [reflexivity|]. apply Hin, Q1. }
    unfold setup_borders in *. rewrite map_app, fold_res_app, K1. cbn [bind map fold_res]. unfold add_border. rewrite Hb. cbn [bind bd_pos write_border].
    fold (vertical s). destruct (area_parse _ _ _ Ha) as (l & E1 & E2). destruct (vertical s) eqn:Ev; cbn [v_rows v_cols] in E1.
    + replace (Z.of_nat cols + 1)%Z with (Z.of_nat (S cols)) by lia. rewrite E1. cbn [bind]. exists bh, (pset_all l b bv). split; [reflexivity|]. split; [apply Hkeep; [discriminate|exact K2]|].
      apply Hnew; assumption.
    + replace (Z.of_nat nrows + 1)%Z with (Z.of_nat (S nrows)) by lia. rewrite E1. cbn [bind]. exists (pset_all l b bh), bv. split; [reflexivity|]. split; [apply Hnew; assumption|apply Hkeep; [discriminate|exact K3]].
Qed.
(** A fill that the user defines. *)
Record fspec := mkFSpec { fs_area : area; fs_color : option cspec }.
Definition write_fill (s : fspec) : fdef := mkFDef (fs_color s) (Some (write_area (fs_area s))).
Definition fills_are (nrows cols : nat) (specs : list fspec) (fills : nat -> nat -> option cspec) : Prop :=
  forall i j, i < nrows -> j < cols ->
    (forall s, last_with (fun s => in_area (fs_area s) nrows cols i j) specs s -> fills i j = fs_color s) /\
    ((forall s, In s specs -> ~ in_area (fs_area s) nrows cols i j) -> fills i j = None).
Lemma fills_ok_ind nrows cols : forall specs, (forall s, In s specs -> area_ok (fs_area s) nrows cols) ->
  exists fs, setup_fills (Z.of_nat nrows) (Z.of_nat cols) (map write_fill specs) = Ok fs /\
    fills_are nrows cols specs (fun i j => match pget (Z.of_nat i) (Z.of_nat j) fs with Some c => c | None => None end).
Proof.
  induction specs as [|s specs IH] using rev_ind; intros Hok.
  - exists []. split; [reflexivity|]. intros i j _ _. split; [intros s (a & b & K & _); destruct a; discriminate|reflexivity].
  - destruct IH as (fs & K1 & K2); [intros s' Hs'; apply Hok, in_or_app; now left|].
    assert (Ha : area_ok (fs_area s) nrows cols) by (apply Hok, in_or_app; right; now left). destruct (area_parse _ _ _ Ha) as (l & E1 & E2).
    unfold setup_fills in *. rewrite map_app, fold_res_app, K1. cbn [bind map fold_res]. unfold add_fill. cbn [fd_pos write_fill]. rewrite E1. cbn [bind].
    eexists. split; [reflexivity|]. intros i j Hi Hj. cbn [fd_color write_fill]. destruct (K2 i j Hi Hj) as [B1 B2]. specialize (E2 i j Hi Hj).
    destruct (pget_in (Z.of_nat i) (Z.of_nat j) l (fs_color s) fs) as [P1 P2]. split.
    + intros s' Hs'. apply last_snoc in Hs' as [[K ->]|[K K']].
      * rewrite P1 by (apply E2, K). reflexivity.
      * rewrite P2 by (intros Q1; apply K, E2, Q1). apply B1, K'.
    + intros K. rewrite P2; [apply B2; intros s' Hs'; apply K, in_or_app; now left|]. intros Q1. apply (K s); [apply in_or_app; right; now left|]. apply E2, Q1.
Qed.
