(** Model of what is read of a font file: pdfme/fonts.py 265-334
    ([_get_font_descriptor]) and the part of 254-263 ([load_font]) that calls it.

    fontTools is not modelled: a font is the record of the fields that are read,
    the tables hhea and OS/2 may be missing.  The numbers of the tables are
    integers, the italic angle a rational.  Quotients of floats are exact. *)
From Coq Require Import String QArith Qround ZArith Lia Lqa.
From Verif Require Import Py PyStr.
Open Scope list_scope.

(** ** Model *)

Record os2 := mkOs2 { o_weight : Z; o_fstype : Z; o_ascender : Z; o_descender : Z; o_version : Z; o_cap : Z }.
Record fontfile := mkFile {
  n_names : list (N * str);  (* font['name'].names: what each is (nameID), and its text *)
  h_upem : positive; h_xmax : Z; h_xmin : Z; h_ymin : Z; h_ymax : Z;  (* head *)
  hhea : option (Z * Z);  (* ascent, descent *)
  t_os2 : option os2;
  p_angle : Q; p_fixed : Z (* post *) }.
Record descriptor := mkDesc {
  ds_name : str; ds_flags : Z; ds_box : Q * Q * Q * Q; ds_angle : Q; ds_ascent : Q; ds_descent : Q; ds_cap : Q; ds_stem : Z }.

Definition scale (f : fontfile) (z : Z) : Q := (inject_Z z * (1000 # h_upem f))%Q.
(** fonts.py 304: [50 + int(pow(usWeightClass / 65.0, 2))]; [int] of a number
    that is not negative is its floor. *)
Definition stem_v (weight : Z) : Z := (50 + Qfloor (((inject_Z weight) / 65) * ((inject_Z weight) / 65)))%Z.
Definition get_flags (angle : Q) (weight fixed : Z) : Z :=
  let f0 := 4%Z in
  let f1 := if negb (Qeq_bool angle 0) then Z.lor f0 64 else f0 in
  let f2 := if (600 <=? weight)%Z then Z.lor f1 262144 else f1 in
  if negb (fixed =? 0)%Z then Z.lor f2 1 else f2.
(** fonts.py 265-334.  The name is the seventh of the table.  Without OS/2 table, [self.ascent] is read, which nothing
    sets. *)
Definition get_descriptor (f : fontfile) : res descriptor :=
  match nth_error (n_names f) 6 with
  | None => Err IndexError
  | Some (_, name) =>
      let yMin := scale f (h_ymin f) in
      let yMax := scale f (h_ymax f) in
      do r <- match t_os2 f with
              | Some o =>
                  if (o_fstype o =? 2)%Z || negb (Z.land (o_fstype o) 768 =? 0)%Z then Err PyException
                  else
                    let '(ascent, descent) := match hhea f with
                                              | Some (a, d) => (scale f a, scale f d)
                                              | None => (scale f (o_ascender o), scale f (o_descender o))
                                              end in
                    Ok (o_weight o, ascent, descent, if (1 <? o_version o)%Z then scale f (o_cap o) else ascent)
              | None => Err AttributeError
              end;
      let '(weight, ascent, descent, cap) := r in
      Ok (mkDesc name (get_flags (p_angle f) weight (p_fixed f)) (scale f (h_xmin f), yMin, scale f (h_xmax f), yMax)
            (p_angle f) ascent descent cap (stem_v weight))
  end.
