(** Theorems for C14-C19, C54, C55 and C57: small pure functions and page
    geometry. *)
From Verif Require Import Py PyStr Parser StreamProofs Ranges Roman Margins PageGeom Jpeg.
From Coq Require Import String QArith.
Open Scope N_scope.
Open Scope list_scope.

(** C14: every integer in 1..3999 is written as its canonical Roman numeral,
    every other one raises, and different numbers look different. *)
Theorem C14_roman : forall z : Z, (0 < z < 4000)%Z ->
  exists r, to_roman z = Ok r /\ roman_value r = z /\ canonical_roman r = true.
Proof. exact to_roman_ok. Qed.
Print Assumptions C14_roman.

Theorem C14_roman_outside : forall z : Z, ~ (0 < z < 4000)%Z -> to_roman z = Err PyException.
Proof. exact to_roman_err. Qed.
Print Assumptions C14_roman_outside.

Theorem C14_roman_injective : forall z1 z2 r, to_roman z1 = Ok r -> to_roman z2 = Ok r -> z1 = z2.
Proof.
  assert (H : forall z r, to_roman z = Ok r -> roman_value r = z).
  { intros z r E. destruct (Z_lt_dec 0 z); [destruct (Z_lt_dec z 4000)|];
      try (rewrite to_roman_err in E by lia; discriminate).
    destruct (to_roman_ok z) as (r' & E' & V & _); [lia|]. congruence. }
  intros z1 z2 r H1 H2. apply H in H1. apply H in H2. congruence.
Qed.
Print Assumptions C14_roman_injective.

Example C14_nonvacuous : to_roman 1994 = Ok (lit "MCMXCIV") /\ to_roman 0 = Err PyException.
Proof. vm_compute. auto. Qed.

(** C15: a page number is in the parsed range exactly when one of the items
    written in the text describes it. *)
Theorem C15_range_membership : forall its, its <> [] -> (forall it, In it its -> valid_item it) ->
  exists m, parse_range_string (render its) = Ok m /\
    forall n, mr_mem m n = true <-> exists it, In it its /\ in_item it n.
Proof. exact range_string_member. Qed.
Print Assumptions C15_range_membership.

(** C15: a text is only accepted when every comma separated part is one
    integer or two or three bounds, of which only the first may be blank. *)
Theorem C15_malformed_raises : forall s m, parse_range_string s = Ok m ->
  forall part, In part (split_on 44 s) -> wellformed_part part.
Proof. exact range_string_strict. Qed.
Print Assumptions C15_malformed_raises.

Example C15_nonvacuous :
  let its := [Single (0, 0)%nat 3; Span (0, 1)%nat (1, 0)%nat None 2;
              SpanStep (0, 0)%nat (0, 0)%nat (0, 0)%nat (Some 9%Z) 5 (-2)] in
  (forall it, In it its -> valid_item it) /\
  exists m, parse_range_string (render its) = Ok m /\
    map (mr_mem m) [0; 1; 2; 3; 5; 7; 9]%Z = [true; true; false; true; false; true; true].
Proof.
  split.
  - intros it [<-|[<-|[<-|[]]]]; cbn; auto. discriminate.
  - eexists. split; vm_compute; reflexivity.
Qed.
Example C15_text : parse_range_string (lit "3, : 2,9:5:-2") =
  Ok [mkRange 3 4 1; mkRange 0 2 1; mkRange 9 5 (-2)] /\
  parse_range_string (lit "1:") = Err ValueError.
Proof. vm_compute. auto. Qed.

(** C16, the part that holds: the selected cells of the table are those of
    python's slices with positive step (with steps above 1 the start must be
    at least [- count]), comma lists and "everything".  Missing: negative
    steps and starts before the beginning. *)
Theorem C16_positions_partial : forall d0 d1 n0 n1, (0 <= n0)%Z -> (0 <= n1)%Z ->
  valid_dim d0 n0 -> valid_dim d1 n1 ->
  exists l, parse_pos_string (join 59 [render_dim d0; render_dim d1]) (n0, n1) = Ok l /\
    forall i j, (0 <= i < n0)%Z -> (0 <= j < n1)%Z ->
      (In (i, j) l <-> in_dim d0 n0 i /\ in_dim d1 n1 j).
Proof. exact pos_string_spec. Qed.
Print Assumptions C16_positions_partial.

Theorem C16_one_dimension_partial : forall d0 n0 n1, (0 <= n0)%Z -> (0 <= n1)%Z -> valid_dim d0 n0 ->
  exists l, parse_pos_string (render_dim d0) (n0, n1) = Ok l /\
    forall i j, (0 <= i < n0)%Z -> (0 <= j < n1)%Z -> (In (i, j) l <-> in_dim d0 n0 i).
Proof. exact pos_string_one_dim. Qed.
Print Assumptions C16_one_dimension_partial.

(** C16 is false for a negative step, where python's [::-1] is everything and
    the code selects nothing, and for a start before the beginning. *)
Theorem C16_positions_refuted :
  parse_pos_string (lit "::-1") (3, 2)%Z = Ok [] /\
  (exists l, parse_pos_string (lit "-5::2") (4, 1)%Z = Ok l /\ ~ In (0, 0)%Z l /\ In (1, 0)%Z l /\
     slice_selects (Some (-5)%Z) None 2 4 0).
Proof.
  split; [vm_compute; reflexivity|]. eexists. split; [vm_compute; reflexivity|].
  split; [intros H; repeat destruct H as [H|H]; try discriminate H; destruct H|].
  split; [cbn; tauto|].
  exists 0%Z. unfold clamp. cbn. lia.
Qed.
Print Assumptions C16_positions_refuted.

Example C16_nonvacuous :
  let d0 := DStep (0, 0)%nat (0, 1)%nat (0, 0)%nat (Some 1%Z) (Some (-1)%Z) (Some 2%Z) in
  let d1 := DList [((1, 0)%nat, (-1)%Z); ((0, 0)%nat, 0%Z)] in
  valid_dim d0 6 /\ valid_dim d1 3 /\
  parse_pos_string (join 59 [render_dim d0; render_dim d1]) (6, 3)%Z
    = Ok [(1, 2); (1, 0); (3, 2); (3, 0)]%Z.
Proof. repeat split; try discriminate; cbn; try lia. Qed.

(** C17, the part that holds: numbers, lists, tuples not of length three,
    texts of two or more numbers, dictionaries and anything else.  Missing:
    texts of one number and tuples of three. *)
Theorem C17_margin_partial : forall float_of m,
  match m with
  | MNum q => exists d, parse_margin float_of m = Ok d /\ margins_are d (q, q, q, q)
  | MList l => exists d, parse_margin float_of m = Ok d /\ margins_are d (css l)
  | MTuple l => List.length l <> 3%nat ->
      exists d, parse_margin float_of m = Ok d /\ margins_are d (css l)
  | MStr s => forall parts qs sep, (sep = 44 \/ sep = 32) -> s = join sep parts ->
      (2 <= List.length parts)%nat ->
      Forall2 (fun p q => float_of p = Ok q /\ ~ In 44 p /\ ~ In 32 p) parts qs ->
      exists d, parse_margin float_of m = Ok d /\ margins_are d (css qs)
  | MDict d => parse_margin float_of m = Ok d
  | MOther => parse_margin float_of m = Err TypeError
  end.
Proof. exact parse_margin_spec. Qed.
Print Assumptions C17_margin_partial.

(** C17 is false for a text with one number and for a tuple of three: both
    are documented and both raise, whatever the float parser. *)
Theorem C17_margin_refuted : forall float_of,
  parse_margin float_of (MStr (lit "56.7")) = Err TypeError /\
  (forall a b c, parse_margin float_of (MTuple [a; b; c]) = Err TypeError).
Proof. intros float_of. split; [vm_compute; reflexivity|]. reflexivity. Qed.
Print Assumptions C17_margin_refuted.

Example C17_nonvacuous : forall float_of, float_of (lit "10") = Ok (10#1)%Q -> float_of (lit "5") = Ok (5#1)%Q ->
  exists d, parse_margin float_of (MStr (lit "10,5")) = Ok d /\
    margins_are d ((10#1)%Q, (5#1)%Q, (10#1)%Q, (5#1)%Q).
Proof.
  intros f H1 H2. apply (C17_margin_partial f (MStr (lit "10,5")) [lit "10"; lit "5"] [(10#1)%Q; (5#1)%Q] 44).
  - auto.
  - reflexivity.
  - cbn; lia.
  - constructor; [|constructor; [|constructor]]; (split; [assumption|]); cbn; intuition discriminate.
Qed.

(** C18: the new page has the asked or default size, swapped exactly when
    rotation is asked (or is the default and not denied), the overridden or
    default margins; it becomes the last and current page; the defaults stay
    as they are. *)
Theorem C18_add_page : forall float_of s size rot margin w h over n,
  (size = None /\ (w, h) = (ps_w s, ps_h s) \/ exists p, size = Some p /\ size_is p (w, h)) ->
  (margin = None /\ over = [] \/ exists m, margin = Some m /\ parse_margin float_of m = Ok over) ->
  only_sides over -> only_sides (ps_margin s) ->
  page_number s (List.length (ps_pages s)) = Ok n ->
  (forall f p, In f (ps_sections s) -> is_ok (f p) = true) ->
  let rotated := match rot with Some b => b | None => ps_rot s end in
  exists s' p, add_page float_of s size rot margin = (Ok tt, s') /\
    s' = with_number (with_pages s (ps_pages s ++ [p])) (List.length (ps_pages s)) (Some n) /\
    (p_width p, p_height p) = (if rotated then (h, w) else (w, h)) /\
    p_mt p = side_spec (lit "top") over (ps_margin s) /\
    p_mr p = side_spec (lit "right") over (ps_margin s) /\
    p_mb p = side_spec (lit "bottom") over (ps_margin s) /\
    p_ml p = side_spec (lit "left") over (ps_margin s) /\
    p_x p = p_ml p /\ (get_y p == p_mt p)%Q /\
    (p_cw p == p_width p - p_ml p - p_mr p)%Q /\
    (p_ch p == p_height p - p_mt p - p_mb p)%Q.
Proof. exact add_page_spec. Qed.
Print Assumptions C18_add_page.

Definition ex_pages : pages_state :=
  mkPS (milli 595276) (milli 841890) true (combine sides [1#1; 2#1; 3#1; 4#1]%Q) [] 0 None 0 true
    [fun p => Ok (p_x p, (p_yb p - (12#1))%Q)].
Example C18_nonvacuous :
  size_is (PName (lit "letter")) ((612#1)%Q, (792#1)%Q) /\
  only_sides [(lit "left", (9#1)%Q)] /\ only_sides (ps_margin ex_pages) /\
  page_number ex_pages 0 = Ok (lit "I").
Proof.
  split; [constructor; cbn; tauto|]. split; [|split; [|vm_compute; reflexivity]].
  - split; [repeat constructor; cbn; tauto|]. intros k [<-|[]]. cbn. tauto.
  - split; [repeat constructor; vm_compute; intuition discriminate|].
    intros k H. vm_compute in H. vm_compute. tauto.
Qed.

(** C18: the names of sizes are those of paper by ISO 216, JIS P 0138 and ANSI,
    here in hundredths of a millimetre, and each gives its size in points, within
    a thousandth. *)
Definition papers : list (str * (Z * Z)) :=
  [(lit "a3", (29700, 42000)); (lit "a4", (21000, 29700)); (lit "a5", (14800, 21000));
   (lit "b4", (25000, 35300)); (lit "b5", (17600, 25000));
   (lit "jis-b4", (25700, 36400)); (lit "jis-b5", (18200, 25700));
   (lit "letter", (21590, 27940)); (lit "legal", (21590, 35560)); (lit "ledger", (27940, 43180))]%Z.
Definition measures (q : Q) (mm100 : Z) : Prop := (-(1 # 1000) <= q - (mm100 # 100) * 72 / (254 # 10) <= 1 # 1000)%Q.
Theorem C18_named_sizes : forall s,
  (forall w h, In (s, (w, h)) papers -> exists x y, size_is (PName s) (x, y) /\ measures x w /\ measures y h) /\
  (forall xy, size_is (PName s) xy -> exists w h, In (s, (w, h)) papers) /\
  ((forall w h, ~ In (s, (w, h)) papers) -> page_pair (PName s) = Err KeyError).
Proof.
  intros s.
  assert (Hall : forallb (fun kv => match page_pair (PName (fst kv)), snd kv with
     | Ok (x, y), (w, h) => Qle_bool (-(1 # 1000)) (x - (w # 100) * 72 / (254 # 10)) && Qle_bool (x - (w # 100) * 72 / (254 # 10)) (1 # 1000) &&
         Qle_bool (-(1 # 1000)) (y - (h # 100) * 72 / (254 # 10)) && Qle_bool (y - (h # 100) * 72 / (254 # 10)) (1 # 1000)
     | _, _ => false end) papers = true) by (vm_compute; reflexivity).
  assert (Hb : forallb (fun kv => existsb (fun p => str_eqb (fst kv) (fst p)) papers) page_sizes = true) by (vm_compute; reflexivity).
  rewrite forallb_forall in Hall, Hb.
  assert (H2 : forall xy, size_is (PName s) xy -> exists w h, In (s, (w, h)) papers).
  { intros xy H. inversion H as [| |s0 wh Hin]; subst. specialize (Hb _ Hin). apply existsb_exists in Hb as ([k [w h]] & Hk & E). cbn [fst] in E. apply str_eqb_eq in E. subst k. eauto. }
  split; [|split; [exact H2|]].
  - intros w h Hin. specialize (Hall _ Hin). cbn [fst snd] in Hall. destruct (page_pair (PName s)) as [[x y]|] eqn:E; [|discriminate].
    apply andb_prop in Hall as [Hall K4]. apply andb_prop in Hall as [Hall K3]. apply andb_prop in Hall as [K1 K2]. apply Qle_bool_iff in K1, K2, K3, K4.
    exists x, y. split; [apply size_is_pair; exact E|]. split; split; assumption.
  - intros Hn. destruct (page_pair (PName s)) as [xy|e] eqn:E.
    + exfalso. destruct (H2 xy) as (w & h & Hin); [apply size_is_pair; exact E|]. exact (Hn w h Hin).
    + unfold page_pair in E. cbn [get_page_size] in E. destruct (dget s page_sizes) as [[w h]|]; cbn [bind] in E; [discriminate|]. congruence.
Qed.
Print Assumptions C18_named_sizes.
Example C18_named_nonvacuous : In (lit "jis-b4", (25700, 36400)%Z) papers /\ ~ In (lit "A4") (map fst papers).
Proof. split; [cbn; tauto|]. vm_compute. intuition discriminate. Qed.

(** C19: the image data of a byte sequence is that of the first frame header
    of its marker chain; every other sequence raises ValueError; the scan
    always ends (the result is never [OutOfFuel]). *)
Theorem C19_jpeg : forall b,
  (forall j, parse_jpg b = Ok j <-> jpeg_chain b j) /\
  ((~ exists j, jpeg_chain b j) -> parse_jpg b = Err ValueError).
Proof. exact parse_jpg_spec. Qed.
Print Assumptions C19_jpeg.

Definition ex_jpeg : bytes :=
  [0xFF; 0xD8; 0xFF; 0xE0; 0; 5; 1; 2; 3; 0xFF; 0xC2; 0; 17; 8; 1; 44; 2; 88; 3; 1; 2; 3].
Example C19_nonvacuous : jpeg_chain ex_jpeg (mkJpeg 8 300 600 (lit "/DeviceRGB")).
Proof. apply C19_jpeg. vm_compute. reflexivity. Qed.

(** C57 is false: the same image with a fill byte before a marker, which
    ITU T.81 B.1.1.2 allows, raises. *)
Theorem C57_fill_bytes_refuted :
  parse_jpg ([0xFF; 0xD8; 0xFF] ++ skipn 2 ex_jpeg) = Err ValueError /\ is_ok (parse_jpg ex_jpeg) = true.
Proof. vm_compute. auto. Qed.
Print Assumptions C57_fill_bytes_refuted.

(** C54: after any number of page additions the number shown is that of the
    last page, offset included, in the chosen style. *)
Theorem C54_page_number : forall float_of s args s', pages_run float_of s args s' -> args <> [] ->
  let i := (List.length (ps_pages s) + List.length args - 1)%nat in
  let n := (Z.of_nat i + 1 + ps_offset s)%Z in
  ps_index s' = i /\ List.length (ps_pages s') = S i /\
  (ps_roman s = false -> ps_number s' = Some (dec_Z n)) /\
  (ps_roman s = true -> exists r, ps_number s' = Some r /\ roman_value r = n /\ canonical_roman r = true).
Proof. exact pages_run_number. Qed.
Print Assumptions C54_page_number.

(** C54: in a section with numbering reset the k-th page has number k. *)
Theorem C54_reset : forall float_of s offset style args s',
  pages_run float_of (section_numbering s offset style true) args s' -> args <> [] ->
  let k := Z.of_nat (List.length args) in
  (style = Some (lit "arabic") -> ps_number s' = Some (dec_Z k)) /\
  (style = Some (lit "roman") ->
     exists r, ps_number s' = Some r /\ roman_value r = k /\ canonical_roman r = true).
Proof. exact section_reset_numbers. Qed.
Print Assumptions C54_reset.

Example C54_nonvacuous : exists s', pages_run (fun _ => Err ValueError) ex_pages
  [(None, None, None); (Some (PNum (9#1)%Q), Some false, Some (MNum (1#1)%Q))] s' /\
  ps_number s' = Some (lit "II").
Proof.
  eexists. split.
  - eapply run_add; [vm_compute; reflexivity|]. eapply run_add; [vm_compute; reflexivity|]. constructor.
  - vm_compute. reflexivity.
Qed.

(** C55: [y] reads back what was set; a sequence of vertical moves adds up;
    the default rectangle reaches the right and bottom margins. *)
Theorem C55_y_roundtrip : forall p v, (get_y (set_y p v) == v)%Q.
Proof. exact y_set_get. Qed.
Print Assumptions C55_y_roundtrip.

Theorem C55_moves : forall hs p,
  let q := fold_left move_down hs p in
  (get_y q == get_y p + fold_right Qplus (0#1) hs)%Q /\ p_x q = p_x p /\
  p_width q = p_width p /\ p_height q = p_height p.
Proof. exact moves_down. Qed.
Print Assumptions C55_moves.

Theorem C55_position : forall p x y w h,
  let '(p', (x', yb', w', h')) := position_and_size p x y w h in
  x' = (match x with Some v => v | None => p_x p end) /\
  (p_height p - yb' == match y with Some v => v | None => get_y p end)%Q /\
  (match w with Some v => w' = v | None => (x' + w' == p_width p - p_mr p)%Q end) /\
  (match h with Some v => h' = v | None => (yb' - h' == p_mb p)%Q end) /\
  p_x p' = x' /\ p_yb p' = yb'.
Proof. exact position_spec. Qed.
Print Assumptions C55_position.
