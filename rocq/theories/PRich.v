(** Theorems for C39-C41: rich text, style strings, colours. *)
From Coq Require Import String QArith Lqa Lia.
From Verif Require Import Py PyStr Parser StreamProofs Gfx ColorNames Color StyleStr RichText.
Open Scope N_scope.
Open Scope list_scope.

(** ** C41 *)

(** Every documented form gives its components; those of hexadecimal colours are
    in [0,1]. *)
Theorem C41_documented : forall c qs, documented c qs ->
  (exists qs', parse_color c = Ok (Some qs') /\ Forall2 Qeq qs' qs) /\
  (forall s, c = SText s -> hd 0 s = 35 -> List.length qs = 3%nat /\ Forall (fun q => 0 <= q <= 1)%Q qs).
Proof.
  intros c qs H. split; [exact (parse_documented c qs H)|]. intros s -> Hs.
  inversion H; subst; cbn [hd] in Hs; repeat match goal with K : hex_is _ _ |- _ => apply hex_is_val in K end.
  - split; [reflexivity|]. repeat constructor; apply hex2_unit; eauto using hex_val_lt.
  - split; [reflexivity|]. repeat constructor; apply hex2_unit; eauto using hex_val_lt.
  - exfalso. inversion H1; subst; inversion H2; subst.
    + destruct (numeral_chars _ _ H5) as [K1 K2]. destruct s as [|x s]; [congruence|]. cbn [hd] in Hs. subst x. discriminate.
    + destruct (numeral_chars _ _ H7) as [K1 K2]. destruct s0 as [|x s0]; [congruence|]. cbn [hd app] in Hs. subst x. discriminate.
Qed.
Print Assumptions C41_documented.
Example C41_documented_nonvacuous :
  documented (SText (lit "#fF8000")) [hex2 15 15; hex2 8 0; hex2 0 0] /\
  documented (SText (lit "#f80")) [hex2 15 15; hex2 8 8; hex2 0 0] /\
  documented (SText (lit "0.5,.25 1")) [inject_Z 5 / inject_Z 10; inject_Z 25 / inject_Z 100; inject_Z 1]%Q /\
  documented (SNum 0) [0]%Q /\ documented (SSeq [VNum 1; VNum (1 # 2); VNum 0]) [1; 1 # 2; 0]%Q.
Proof.
  split; [apply doc_hex6; solve [left; reflexivity|right; reflexivity]|]. split; [apply doc_hex3; left; reflexivity|]. split; [|split; [constructor|]].
  - apply (doc_text [lit "0.5"; lit ".25"; lit "1"]); [| |right; left; reflexivity].
    + apply (sep_more (lit "0.5") 44); [now left|]. apply (sep_more (lit ".25") 32); [now right|]. constructor.
    + constructor; [apply num_pos|constructor; [apply num_pos|constructor; [apply num_pos|constructor]]].
      * apply (num_frac [48] [53]); [left; discriminate|reflexivity|reflexivity].
      * apply (num_frac [] [50; 53]); [right; discriminate|reflexivity|reflexivity].
      * apply (num_int [49]); [discriminate|reflexivity].
  - apply (doc_seq [1; 1 # 2; 0]%Q). right. left. reflexivity.
Qed.

(** The names are those of CSS, in lower case, and each gives its colour, every
    component within 0.004 of [n / 255], and 0 and 1 exactly. *)
Definition near (q : Q) (n : N) : Prop :=
  (-(4 # 1000) <= q - inject_Z (Z.of_N n) / 255 <= 4 # 1000)%Q /\ (n = 0 -> (q == 0)%Q) /\ (n = 255 -> (q == 1)%Q).
Definition css (s : str) : Prop := In s (map fst css_names).
Definition near_b (q : Q) (n : N) : bool :=
  Qle_bool (-(4 # 1000)) (q - inject_Z (Z.of_N n) / 255) && Qle_bool (q - inject_Z (Z.of_N n) / 255) (4 # 1000) &&
  (negb (n =? 0) || Qeq_bool q 0) && (negb (n =? 255) || Qeq_bool q 1).
Lemma near_spec q n : near_b q n = true -> near q n.
Proof.
  unfold near_b. intros H. apply andb_prop in H as [H H4]. apply andb_prop in H as [H H3]. apply andb_prop in H as [H1 H2].
  apply Qle_bool_iff in H1, H2. split; [split; assumption|]. split; intros ->; [apply Qeq_bool_iff; exact H3|apply Qeq_bool_iff; exact H4].
Qed.
Lemma css_colors s : css s <-> dget s colors <> None.
Proof.
  assert (H1 : forallb (fun k => match dget k colors with Some _ => true | None => false end) (map fst css_names) = true) by (vm_compute; reflexivity).
  assert (H2 : forallb (fun kv => existsb (str_eqb (fst kv)) (map fst css_names)) colors = true) by (vm_compute; reflexivity).
  rewrite forallb_forall in H1, H2. split.
  - intros H. specialize (H1 s H). destruct (dget s colors); [discriminate|discriminate H1].
  - intros H. destruct (dget s colors) as [qs|] eqn:E; [|congruence]. apply dget_in in E. specialize (H2 _ E). apply existsb_exists in H2 as (k & Hk & Hs). cbn [fst] in Hs. apply str_eqb_eq in Hs. subst k. exact Hk.
Qed.
Theorem C41_names : forall s r g b, In (s, (r, g, b)) css_names ->
  exists x y z, parse_color (SText s) = Ok (Some [x; y; z]) /\ near x r /\ near y g /\ near z b.
Proof.
  intros s r g b H.
  assert (Hall : forallb (fun kv => match parse_color (SText (fst kv)), snd kv with Ok (Some [x; y; z]), (r, g, b) => near_b x r && near_b y g && near_b z b | _, _ => false end) css_names = true) by (vm_compute; reflexivity).
  rewrite forallb_forall in Hall. specialize (Hall _ H). cbn [fst snd] in Hall.
  destruct (parse_color (SText s)) as [[[|x [|y [|z [|t l]]]]|]|]; try discriminate Hall.
  apply andb_prop in Hall as [Hall H3]. apply andb_prop in Hall as [H1 H2]. exists x, y, z. auto using near_spec.
Qed.
Print Assumptions C41_names.
Example C41_names_nonvacuous : In (lit "teal", (0, 128, 128)) css_names.
Proof. vm_compute. tauto. Qed.

(** The operator that is written. *)
Theorem C41_written : forall round3 stroke c qs, parse_color c = Ok (Some qs) ->
  match qs with
  | [g] => color_op round3 stroke (Some qs) = Ok [if stroke then GStrokeColor (Gray (round3 g)) else GFillColor (Gray (round3 g))]
  | [r; g; b] => color_op round3 stroke (Some qs) =
      Ok [if stroke then GStrokeColor (Rgb (round3 r) (round3 g) (round3 b)) else GFillColor (Rgb (round3 r) (round3 g) (round3 b))]
  | _ => color_op round3 stroke (Some qs) = Err TypeError
  end.
Proof. intros round3 stroke c qs _. destruct qs as [|a [|b [|d [|e qs]]]]; destruct stroke; reflexivity. Qed.
Print Assumptions C41_written.
Example C41_written_nonvacuous : forall round3, color_op round3 true (Some [1; 0; 0]%Q) = Ok [GStrokeColor (Rgb (round3 1%Q) (round3 0%Q) (round3 0%Q))].
Proof. reflexivity. Qed.

(** A text that gives a colour is a name, has the form of a hexadecimal
    colour, or is one, three or four numbers between commas or spaces.
    A text that raises is no name, and raises [TypeError], or [ValueError] if
    it has the form of a hexadecimal colour. *)
Theorem C41_invalid_partial : forall s,
  (forall qs, parse_color (SText s) = Ok (Some qs) ->
     css s \/ hex_form s \/
     exists ss, separated ss s /\ rgb_count (List.length ss) /\ Forall2 (fun t q => py_float t = Some q) ss qs) /\
  (forall e, parse_color (SText s) = Err e -> ~ css s /\ (e = TypeError \/ (e = ValueError /\ hex_form s))).
Proof.
  intros s. pose proof (css_colors s) as Hn. split.
  - intros qs H. destruct (text_accepted s qs H) as [K|K]; [left; apply Hn; congruence|right; exact K].
  - intros e H. destruct (text_rejected s e H) as [K1 K2]. split; [rewrite Hn; congruence|exact K2].
Qed.
Print Assumptions C41_invalid_partial.
Example C41_invalid_nonvacuous : parse_color (SText (lit "redd")) = Err TypeError /\ parse_color (SText (lit "#12")) = Err TypeError /\
  parse_color (SText (lit "#1_2")) = Err ValueError.
Proof. repeat split; reflexivity. Qed.

(** Not all invalid colours raise: a list or text of another number of
    components gives no colour; and a text with a minus sign is taken for a
    hexadecimal colour and gives a component that is negative. *)
Theorem C41_invalid_refuted :
  (forall l, ~ rgb_count (List.length l) -> parse_color (SSeq l) = Ok None) /\
  parse_color (SText (lit "x,y")) = Ok None /\
  (exists q r, parse_color (SText (lit "#-12345")) = Ok (Some (q :: r)) /\ (q < 0)%Q).
Proof.
  split; [|split; [reflexivity|]].
  - intros l H. unfold rgb_count in H. destruct l as [|a [|b [|c [|d [|e l]]]]]; cbn [List.length] in H; try reflexivity; exfalso; lia.
  - eexists _, _. split; reflexivity.
Qed.
Print Assumptions C41_invalid_refuted.

(** ** C40 *)

(** Exactly the strings made of pieces between semicolons, each empty or one of
    the attributes that [writes] lists, are accepted; each attribute has the
    last value given to it, and there are no others.  What is rejected raises
    [ValueError], or what its colour raises.  Missing: a flag with a value, white
    space before "s" and "r", [ValueError] for colours. *)
Theorem C40_style_strings_partial : forall family s,
  (forall st, parse_style_str family s = Ok st <->
    exists ps kvss, ps <> [] /\ Forall no_semicolon ps /\ s = join 59 ps /\ Forall2 (writes_piece family) ps kvss /\
      st = dupdate [] (List.concat kvss)) /\
  (forall kvs k, dget k (dupdate [] kvs) = match find (fun kv => str_eqb k (fst kv)) (rev kvs) with Some kv => Some (snd kv) | None => None end) /\
  (forall e, parse_style_str family s = Err e -> e = ValueError \/ exists x, parse_color (SText x) = Err e).
Proof.
  intros family s. split; [intros st; exact (style_string_iff family s st)|]. split; [|exact (style_string_err family s)].
  intros kvs k. rewrite dupdate_get. destruct (find _ _); reflexivity.
Qed.
Print Assumptions C40_style_strings_partial.
Example C40_nonvacuous : parse_style_str (fun _ => true) (lit "b;s:10;c:red; bg : 0.5 ;f: Times ;s:11;") =
  Ok [(lit "b", BoolV true); (lit "s", NumV 11); (lit "c", ColorV (Some [1; 0; 0]%Q)); (lit "bg", ColorV (Some [5 * Qpower 10 (-1)]%Q)); (lit "f", FontV (lit "Times"))].
Proof. reflexivity. Qed.

Definition flags : list str := [lit "b"; lit "i"; lit "u"].
(** A flag with a value, as the documentation of the function gives it, raises
    always; white space before the name matters only for "s" and "r"; a wrong
    colour raises [TypeError]. *)
Theorem C40_style_strings_refuted :
  (forall family n v, In n flags -> exists e, parse_style_str family (n ++ 58 :: v) = Err e) /\
  (forall family, parse_style_str family (lit "b; c:red") = Ok [(lit "b", BoolV true); (lit "c", ColorV (Some [1; 0; 0]%Q))]) /\
  (forall family, parse_style_str family (lit "b; s:10") = Err ValueError) /\
  (forall family, parse_style_str family (lit "c:foo") = Err TypeError).
Proof.
  split; [|split; [reflexivity|split; [reflexivity|reflexivity]]].
  intros family n v Hn. destruct (parse_style_str family (n ++ 58 :: v)) as [st|e] eqn:E; [exfalso|eauto].
  apply style_string_iff in E as (ps & kvss & Hps & Hf & Hs & Hw & _). destruct ps as [|p ps]; [congruence|].
  assert (Hp : exists v', p = n ++ 58 :: v').
  { apply Forall_cons_iff in Hf as [Hp _]. unfold no_semicolon in Hp.
    assert (K : exists r, p ++ r = n ++ 58 :: v /\ (r = [] \/ exists t, r = 59 :: t)).
    { destruct ps as [|p2 ps]; cbn [join] in Hs; [exists []; rewrite app_nil_r; auto|]. exists (59 :: join 59 (p2 :: ps)). split; [now rewrite Hs|eauto]. }
    destruct K as (r & K & Kr). cbn [In flags] in Hn.
    destruct Hn as [<-|[<-|[<-|[]]]]; cbn [lit map list_ascii_of_string app] in K |- *;
    (destruct p as [|a [|b p]];
      [destruct Kr as [->|(t & ->)]; discriminate K|destruct Kr as [->|(t & ->)]; discriminate K|injection K as -> -> _; eauto]). }
  destruct Hp as (v' & ->). inversion Hw as [|? ? ? ? Hw1]; subst. inversion Hw1 as [Hz|? ? Hw2]; subst.
  { destruct n; discriminate. }
  assert (Hnc : forallb (fun c => negb (58 =? c)) n = true) by (cbn in Hn; destruct Hn as [<-|[<-|[<-|[]]]]; reflexivity).
  assert (Hd : forall a w x y, n ++ 58 :: v' = a ++ 58 :: w -> pads x a -> pads y w -> py_strip n = x).
  { intros a w x y He Ha _. apply pads_iff in Ha as [Ha1 Ha2]. assert (a = n); [|now subst].
    clear - He Hnc Ha2. revert a He Ha2. induction n as [|c n IH]; intros [|c2 a] He Ha; cbn [app forallb] in *; [reflexivity| | |].
    - injection He as <- _. discriminate.
    - injection He as -> _. discriminate.
    - injection He as -> He. apply andb_prop in Ha as [_ Ha]. apply andb_prop in Hnc as [_ Hnc]. f_equal. now apply IH. }
  inversion Hw2 as [m a Hm Ha1 Hz Hk|x a w Hx Pa Pw Hz Hk|x c a w Hx Pa Pw Hz Hk|x c a w Hx Pa Pw Hz Hk|x q w Hx Pw Hz Hk|x q w Hx Pw Hz Hk].
  - apply pads_iff in Ha1 as [Ha1 Ha2]. rewrite forallb_app in Ha2. apply andb_prop in Ha2 as [_ Ha2]. discriminate.
  - pose proof (Hd _ _ _ _ (eq_sym Hz) Pa Pw) as K. cbn in Hn; destruct Hn as [<-|[<-|[<-|[]]]]; discriminate.
  - pose proof (Hd _ _ _ _ (eq_sym Hz) Pa Pw) as K. cbn in Hn; destruct Hn as [<-|[<-|[<-|[]]]]; discriminate.
  - pose proof (Hd _ _ _ _ (eq_sym Hz) Pa Pw) as K. cbn in Hn; destruct Hn as [<-|[<-|[<-|[]]]]; discriminate.
  - cbn in Hn; destruct Hn as [<-|[<-|[<-|[]]]]; discriminate Hz.
  - cbn in Hn; destruct Hn as [<-|[<-|[<-|[]]]]; discriminate Hz.
Qed.
Print Assumptions C40_style_strings_refuted.

(** ** C39 *)

(** The parts that are built show exactly the characters and line breaks of
    the nested content, in order, each with the style that cascades to it and the
    ids of its ancestors and its own; no part is empty; and the content raises
    exactly if some part of it is not as documented. *)
Theorem C39_rich_text : forall family formats outline_id elements_text (sty_eqb : sdict -> sdict -> bool),
  (forall a, sty_eqb a a = true) -> (forall a b, sty_eqb a b = sty_eqb b a) ->
  (forall a b c, sty_eqb a b = true -> sty_eqb b c = true -> sty_eqb a c = true) ->
  forall defaults r n, root_node r = Some n ->
  match parse_content family formats outline_id elements_text sty_eqb defaults r,
        glyphs family formats outline_id elements_text n defaults [] with
  | Ok items, Ok gs => flat_map item_glyphs items = gs /\ forall p, In (IPart p) items -> p_text p <> []
  | Err e, Err e' => e = e'
  | _, _ => False
  end.
Proof. exact content_ok. Qed.
Print Assumptions C39_rich_text.

Definition sval_dec (a b : sval) : {a = b} + {a <> b}.
Proof.
  assert (Dq : forall x y : Q, {x = y} + {x <> y}) by (decide equality; [apply Pos.eq_dec|apply Z.eq_dec]).
  assert (Ds : forall x y : str, {x = y} + {x <> y}) by (apply list_eq_dec; apply N.eq_dec).
  assert (Dv : forall x y : cval, {x = y} + {x <> y}) by decide equality.
  assert (Dc : forall x y : cspec, {x = y} + {x <> y}) by (decide equality; apply list_eq_dec; exact Dv).
  decide equality; [apply bool_dec|]. decide equality. apply list_eq_dec. exact Dq.
Defined.
Definition dict_dec (a b : sdict) : {a = b} + {a <> b}.
Proof. apply list_eq_dec. decide equality; [apply sval_dec|apply list_eq_dec; apply N.eq_dec]. Defined.
Definition dict_eqb (a b : sdict) : bool := if dict_dec a b then true else false.
Lemma dict_eqb_refl a : dict_eqb a a = true.
Proof. unfold dict_eqb. destruct (dict_dec a a); congruence. Qed.
Lemma dict_eqb_sym a b : dict_eqb a b = dict_eqb b a.
Proof. unfold dict_eqb. destruct (dict_dec a b), (dict_dec b a); congruence. Qed.
Lemma dict_eqb_trans a b c : dict_eqb a b = true -> dict_eqb b c = true -> dict_eqb a c = true.
Proof. unfold dict_eqb. destruct (dict_dec a b), (dict_dec b c), (dict_dec a c); congruence. Qed.
(** A text with a bold part that has a label, an empty part and a reference
    inside it. *)
Definition ex_inner : node := Node (lit "u") (DText (lit "in")) (mkInfo NoStyle None [] None (Some (lit "there")) None None []).
Definition ex_root : root :=
  RSeq [EText (lit "one"); EText [10; 116]; ENode (Node (lit "b") (DSeq [ENode ex_inner; EText []; EText (lit "x")])
          (mkInfo (Given [(lit "s", NumV 20)]) None [lit "k"] (Some (lit "here")) None None None []));
        ENode (Node [] (DSeq []) default_info); EText (lit "end")].
Example C39_nonvacuous :
  let sz := (lit "s", NumV 20) in let b := (lit "b", BoolV true) in let u := (lit "u", BoolV true) in
  let base := [(lit "s", NumV 11)] in let bold := [sz; b] in let under := [sz; b; u] in
  let here := lit "$label:here" in
  parse_content (fun _ => true) None (fun _ _ _ => []) (fun _ => []) dict_eqb base ex_root =
  Ok [IPart (mkPart base (lit "one") [] None); IBr; IPart (mkPart base (lit "t") [] None);
      IPart (mkPart under (lit "in") [lit "k"; here; lit "$ref:there"] None);
      IPart (mkPart bold (lit "x") [lit "k"; here] None);
      IPart (mkPart base (lit "end") [] None)].
Proof. reflexivity. Qed.
