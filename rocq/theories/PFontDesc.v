(** C80: what is said about an embedded font. *)
From Coq Require Import String QArith Qround ZArith Lia Lqa.
From Verif Require Import Py PyStr FontDesc.
Open Scope list_scope.

(** A measure of the font in thousandths of the em. *)
Definition in_thousandths (f : fontfile) (z : Z) (q : Q) : Prop := (q * inject_Z (Z.pos (h_upem f)) == 1000 * inject_Z z)%Q.
(** The licence of the font forbids to embed it (OpenType, OS/2 fsType): it is
    restricted, or may not be subset, or only bitmaps may be embedded. *)
Definition forbidden (o : os2) : Prop := o_fstype o = 2%Z \/ Z.testbit (o_fstype o) 8 = true \/ Z.testbit (o_fstype o) 9 = true.
(** The flags (ISO 32000-1, table 123), counted from 0. *)
Definition has_flag (f : fontfile) (o : os2) (i : Z) : Prop :=
  i = 2%Z \/ (i = 0%Z /\ p_fixed f <> 0%Z) \/ (i = 6%Z /\ ~ (p_angle f == 0)%Q) \/ (i = 18%Z /\ (600 <= o_weight o)%Z).

Lemma scale_thousandths f z : in_thousandths f z (scale f z).
Proof.
  unfold in_thousandths, scale. rewrite (Qmake_Qdiv 1000 (h_upem f)). field. unfold Qeq. cbn. lia.
Qed.

Lemma land_768 z : Z.land z 768 = 0%Z <-> Z.testbit z 8 = false /\ Z.testbit z 9 = false.
Proof.
  split.
  - intros H. split.
    + assert (K : Z.testbit (Z.land z 768) 8 = false) by (rewrite H; reflexivity). rewrite Z.land_spec in K.
      change (Z.testbit 768 8) with true in K. now rewrite andb_true_r in K.
    + assert (K : Z.testbit (Z.land z 768) 9 = false) by (rewrite H; reflexivity). rewrite Z.land_spec in K.
      change (Z.testbit 768 9) with true in K. now rewrite andb_true_r in K.
  - intros [H8 H9]. apply Z.bits_inj'. intros n Hn. rewrite Z.land_spec, Z.bits_0.
    destruct (Z.eq_dec n 8) as [->|N8]; [now rewrite H8|]. destruct (Z.eq_dec n 9) as [->|N9]; [now rewrite H9|].
    replace (Z.testbit 768 n) with false; [apply andb_false_r|]. symmetry.
    change 768%Z with (Z.lor (2 ^ 8) (2 ^ 9))%Z. rewrite Z.lor_spec, !Z.pow2_bits_eqb by lia.
    rewrite (proj2 (Z.eqb_neq 8 n)), (proj2 (Z.eqb_neq 9 n)) by lia. reflexivity.
Qed.

Lemma forbidden_test o : ((o_fstype o =? 2)%Z || negb (Z.land (o_fstype o) 768 =? 0)%Z) = true <-> forbidden o.
Proof.
  unfold forbidden. rewrite orb_true_iff, negb_true_iff, Z.eqb_eq, Z.eqb_neq, land_768.
  destruct (Z.testbit (o_fstype o) 8), (Z.testbit (o_fstype o) 9); intuition congruence.
Qed.

Lemma flags_bits f o i : (0 <= i)%Z -> Z.testbit (get_flags (p_angle f) (o_weight o) (p_fixed f)) i = true <-> has_flag f o i.
Proof.
  intros Hi. unfold get_flags, has_flag.
  assert (P : forall z k, (0 <= k)%Z -> z = (2 ^ k)%Z -> Z.testbit z i = (k =? i)%Z) by (intros z k Hk ->; apply Z.pow2_bits_eqb; exact Hk).
  assert (E : forall (c : bool) a z, Z.testbit (if c then Z.lor a z else a) i = Z.testbit a i || (c && Z.testbit z i))
    by (intros [|] a z; [apply Z.lor_spec|symmetry; apply orb_false_r]).
  rewrite !E, (P 4%Z 2%Z), (P 64%Z 6%Z), (P 262144%Z 18%Z), (P 1%Z 0%Z) by (reflexivity || lia).
  rewrite !orb_true_iff, !andb_true_iff, !negb_true_iff, !Z.eqb_eq, Z.eqb_neq, Z.leb_le.
  assert (Q : Qeq_bool (p_angle f) 0 = false <-> ~ (p_angle f == 0)%Q).
  { split; [apply Qeq_bool_neq|]. intros H. destruct (Qeq_bool (p_angle f) 0) eqn:E0; [|reflexivity]. destruct H. now apply Qeq_bool_eq. }
  rewrite Q. intuition lia.
Qed.

Lemma stem_bounds w : (4225 * (stem_v w - 50) <= w * w < 4225 * (stem_v w - 49))%Z.
Proof.
  unfold stem_v. set (q := (inject_Z w / 65 * (inject_Z w / 65))%Q).
  assert (Hq : (4225 * q == inject_Z (w * w))%Q) by (unfold q; rewrite inject_Z_mult; field).
  clearbody q. pose proof (Qfloor_le q) as H1. pose proof (Qlt_floor q) as H2.
  replace (50 + Qfloor q - 50)%Z with (Qfloor q) by lia. replace (50 + Qfloor q - 49)%Z with (Qfloor q + 1)%Z by lia.
  split.
  - rewrite Zle_Qle, inject_Z_mult, <- Hq. change (inject_Z 4225) with 4225%Q. lra.
  - rewrite Zlt_Qlt, <- Hq, (inject_Z_mult 4225). change (inject_Z 4225) with 4225%Q. lra.
Qed.

(** The font descriptor of a font with an OS/2 table whose licence does not
    forbid it, and whose seventh name is its PostScript name: the name, the
    measures in thousandths of the em, the ascent and descent of hhea, or of OS/2
    when there is no hhea, the height of capitals of OS/2 if it has one (version 2
    on), or else the ascent, the flags, and a stem that grows with the square of
    the weight. *)
Theorem C80_descriptor_partial : forall f o name, t_os2 f = Some o -> ~ forbidden o -> nth_error (n_names f) 6 = Some (6%N, name) ->
  exists d, get_descriptor f = Ok d /\
    ds_name d = name /\ ds_angle d = p_angle f /\
    (exists x y z t, ds_box d = (x, y, z, t) /\ in_thousandths f (h_xmin f) x /\ in_thousandths f (h_ymin f) y /\
       in_thousandths f (h_xmax f) z /\ in_thousandths f (h_ymax f) t) /\
    in_thousandths f (match hhea f with Some (a, _) => a | None => o_ascender o end) (ds_ascent d) /\
    in_thousandths f (match hhea f with Some (_, b) => b | None => o_descender o end) (ds_descent d) /\
    ((2 <= o_version o)%Z -> in_thousandths f (o_cap o) (ds_cap d)) /\ ((o_version o < 2)%Z -> ds_cap d = ds_ascent d) /\
    (forall i, (0 <= i)%Z -> Z.testbit (ds_flags d) i = true <-> has_flag f o i) /\
    (4225 * (ds_stem d - 50) <= o_weight o * o_weight o < 4225 * (ds_stem d - 49))%Z.
Proof.
  intros f o name Ho Hf Hn. unfold get_descriptor. rewrite Hn, Ho.
  destruct (_ || _) eqn:E; [apply forbidden_test in E; contradiction|].
  destruct (hhea f) as [[a b]|]; cbn [bind]; eexists; (split; [reflexivity|]); cbn [ds_name ds_angle ds_box ds_ascent ds_descent ds_cap ds_flags ds_stem];
    (split; [reflexivity|]); (split; [reflexivity|]);
    (split; [eexists _, _, _, _; split; [reflexivity|]; repeat split; apply scale_thousandths|]);
    (split; [apply scale_thousandths|]); (split; [apply scale_thousandths|]);
    (split; [intros Hv; rewrite (proj2 (Z.ltb_lt 1 (o_version o))) by lia; apply scale_thousandths|]);
    (split; [intros Hv; rewrite (proj2 (Z.ltb_ge 1 (o_version o))) by lia; reflexivity|]);
    (split; [intros i Hi; apply flags_bits; exact Hi|apply stem_bounds]).
Qed.

(** A font that must not be embedded is refused, and only such fonts are, when
    there is an OS/2 table. *)
Theorem C80_licence : forall f o x, t_os2 f = Some o -> nth_error (n_names f) 6 = Some x ->
  (get_descriptor f = Err PyException <-> forbidden o) /\ (~ forbidden o -> exists d, get_descriptor f = Ok d).
Proof.
  intros f o [i name] Ho Hn. unfold get_descriptor. rewrite Hn, Ho. rewrite <- forbidden_test.
  destruct (_ || _).
  - cbn. split; [split; reflexivity|]. intros H. destruct H. reflexivity.
  - destruct (hhea f) as [[a b]|]; cbn [bind]; (split; [split; discriminate|]); intros _; eexists; reflexivity.
Qed.

(** ** What is not so *)

(** A font without OS/2 table, which is not required for embedding, raises. *)
Theorem C80_no_os2_refuted : exists f, t_os2 f = None /\ nth_error (n_names f) 6 <> None /\ get_descriptor f = Err AttributeError.
Proof.
  exists (mkFile (map (fun i => (i, lit "x")) [0; 1; 2; 3; 4; 5; 6]%N) 1000 900 0 (-200) 800 (Some (800, -200)%Z) None 0 0).
  split; [reflexivity|]. split; [discriminate|reflexivity].
Qed.
(** The name is the seventh record of the name table, not the PostScript name: a
    font without copyright notice (record 0) gets another text, here with a space,
    which no name in a PDF file can have. *)
Theorem C80_name_refuted : exists f d name, In (6%N, name) (n_names f) /\ get_descriptor f = Ok d /\ ds_name d <> name /\ In 32%N (ds_name d).
Proof.
  exists (mkFile (map (fun i => (i, if (i =? 6)%N then lit "Some-Bold" else lit "Trademark of Some")) [1; 2; 3; 4; 5; 6; 7]%N)
            1000 900 0 (-200) 800 (Some (800, -200)%Z) (Some (mkOs2 400 0 800 (-200) 3 700)) 0 0).
  eexists _, (lit "Some-Bold"). split; [right; right; right; right; right; left; reflexivity|].
  split; [reflexivity|]. cbn [ds_name]. split; [discriminate|]. vm_compute. tauto.
Qed.
(** A font with fewer names raises. *)
Theorem C80_few_names_refuted : exists f o, t_os2 f = Some o /\ ~ forbidden o /\ In (6%N, lit "Some") (n_names f) /\ get_descriptor f = Err IndexError.
Proof.
  exists (mkFile (map (fun i => (i, lit "Some")) [1; 2; 3; 4; 5; 6]%N) 1000 900 0 (-200) 800 None (Some (mkOs2 400 0 800 (-200) 3 700)) 0 0).
  eexists. split; [reflexivity|]. split; [intros [H|[H|H]]; discriminate|]. split; [vm_compute; tauto|reflexivity].
Qed.

(** A bold italic font with 2048 units in the em. *)
Example C80_applies : exists f o name d, t_os2 f = Some o /\ ~ forbidden o /\ nth_error (n_names f) 6 = Some (6%N, name) /\
  get_descriptor f = Ok d /\ ds_flags d = 262212%Z /\ ds_stem d = 165%Z /\ (ds_ascent d == 1000)%Q /\ (ds_cap d == 500)%Q.
Proof.
  exists (mkFile (map (fun i => (i, lit "Some-Bold")) [0; 1; 2; 3; 4; 5; 6]%N) 2048 1800 0 (-400) 1900 (Some (2048, -512)%Z)
            (Some (mkOs2 700 0 800 (-200) 3 1024)) (-(12)) 0).
  eexists _, _, _. split; [reflexivity|]. split; [intros [H|[H|H]]; discriminate|]. split; [reflexivity|]. split; [reflexivity|].
  split; [reflexivity|]. split; [vm_compute; reflexivity|]. split; reflexivity.
Qed.
Print Assumptions C80_descriptor_partial.
Print Assumptions C80_licence.
Print Assumptions C80_no_os2_refuted.
Print Assumptions C80_name_refuted.
Print Assumptions C80_few_names_refuted.
