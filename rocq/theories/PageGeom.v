(** Model of pages, their cursor and numbering: pdfme/page.py 25-73 and
    pdfme/pdf.py 183-281, 515-553.  Lengths are exact rationals. *)
From Verif Require Import Py PyStr Parser StreamProofs Ranges Roman Margins.
From Coq Require Import String QArith Lqa.
Open Scope N_scope.
Open Scope list_scope.

(** page.py 25-46 [PDFPage]: geometry and cursor ([p_yb] is [_y]). *)
Record page := mkPage {
  p_width : Q; p_height : Q;
  p_mt : Q; p_mb : Q; p_ml : Q; p_mr : Q;
  p_x : Q; p_yb : Q; p_cw : Q; p_ch : Q }.

Definition set_cursor (p : page) (x yb : Q) : page :=
  mkPage (p_width p) (p_height p) (p_mt p) (p_mb p) (p_ml p) (p_mr p) x yb (p_cw p) (p_ch p).

(** page.py 48-56: the [y] property. *)
Definition get_y (p : page) : Q := (p_height p - p_yb p)%Q.
(** page.py 58-60: the setter. *)
Definition set_y (p : page) (v : Q) : page := set_cursor p (p_x p) (p_height p - v)%Q.
(** [page.y += h] and [page.x += w] (pdf.py 421-424, 640-643). *)
Definition move_down (p : page) (h : Q) : page := set_y p (get_y p + h)%Q.
Definition move_right (p : page) (w : Q) : page := set_cursor p (p_x p + w)%Q (p_yb p).

(** page.py 62-71 [go_to_beginning]. *)
Definition go_to_beginning (p : page) : page :=
  mkPage (p_width p) (p_height p) (p_mt p) (p_mb p) (p_ml p) (p_mr p)
    (p_ml p) (p_height p - p_mt p)%Q
    (p_width p - p_mr p - p_ml p)%Q (p_height p - p_mt p - p_mb p)%Q.

(** page.py 25-38 with the keyword arguments of pdf.py 271-273: an unknown
    keyword is a TypeError, a missing one is 0. *)
Definition margin_or_0 (k : str) (d : list (str * Q)) : Q :=
  match dget k d with Some v => v | None => (0#1)%Q end.
Definition new_page (w h : Q) (d : list (str * Q)) : res page :=
  if forallb (fun kv => existsb (str_eqb (fst kv)) sides) d then
    Ok (go_to_beginning
          (mkPage w h (margin_or_0 (lit "top") d) (margin_or_0 (lit "bottom") d)
             (margin_or_0 (lit "left") d) (margin_or_0 (lit "right") d)
             (0#1)%Q (0#1)%Q (0#1)%Q (0#1)%Q))
  else Err TypeError.

(** The part of a [PDF] instance about pages. [ps_sections]: what drawing each
    running section does to the cursor of the page (any function). *)
Record pages_state := mkPS {
  ps_w : Q; ps_h : Q; ps_rot : bool; ps_margin : list (str * Q);
  ps_pages : list page; ps_index : nat; ps_number : option str;
  ps_offset : Z; ps_roman : bool;
  ps_sections : list (page -> res (Q * Q)) }.

Definition with_pages (s : pages_state) (ps : list page) : pages_state :=
  mkPS (ps_w s) (ps_h s) (ps_rot s) (ps_margin s) ps (ps_index s) (ps_number s)
    (ps_offset s) (ps_roman s) (ps_sections s).
Definition with_number (s : pages_state) (i : nat) (n : option str) : pages_state :=
  mkPS (ps_w s) (ps_h s) (ps_rot s) (ps_margin s) (ps_pages s) i n
    (ps_offset s) (ps_roman s) (ps_sections s).

(** pdf.py 543-553 [get_page_number] for the page of index [i]. *)
Definition page_number (s : pages_state) (i : nat) : res str :=
  let n := (Z.of_nat i + 1 + ps_offset s)%Z in
  if ps_roman s then to_roman n else Ok (dec_Z n).

Section Float.
Variable float_of : str -> res Q.

(** pdf.py 220-241 [setup_page]. *)
Definition setup_page (s : pages_state) (size : option psize) (rot : option bool)
    (margin : option mvalue) : res pages_state :=
  do wh <- match size with Some p => page_pair p | None => Ok (ps_w s, ps_h s) end;
  do m <- match margin with Some m => parse_margin float_of m | None => Ok (ps_margin s) end;
  Ok (mkPS (fst wh) (snd wh) (match rot with Some b => b | None => ps_rot s end) m
        (ps_pages s) (ps_index s) (ps_number s) (ps_offset s) (ps_roman s) (ps_sections s)).

(** pdf.py 276-277: draw the running sections on the page. *)
Fixpoint draw_sections (l : list (page -> res (Q * Q))) (p : page) : res page :=
  match l with
  | [] => Ok p
  | f :: r => do c <- f p; draw_sections r (set_cursor p (fst c) (snd c))
  end.

(** [dict.update]. *)
Fixpoint dupdate {V} (d e : list (str * V)) : list (str * V) :=
  match e with [] => d | (k, v) :: r => dupdate (dset k v d) r end.

(** pdf.py 243-281 [add_page].  The state is returned also when it raises:
    the page is already appended when its number cannot be written. *)
Definition add_page (s : pages_state) (size : option psize) (rot : option bool)
    (margin : option mvalue) : res unit * pages_state :=
  match
    (do wh <- match size with Some p => page_pair p | None => Ok (ps_w s, ps_h s) end;
     let wh' := if match rot with Some b => b | None => ps_rot s end
                then (snd wh, fst wh) else wh in
     do m <- match margin with
             | Some m => do e <- parse_margin float_of m; Ok (dupdate (ps_margin s) e)
             | None => Ok (ps_margin s)
             end;
     new_page (fst wh') (snd wh') m)
  with
  | Err e => (Err e, s)
  | Ok p =>
      let i := List.length (ps_pages s) in
      let s1 := with_number (with_pages s (ps_pages s ++ [p])) i (ps_number s) in
      match page_number s1 i with
      | Err e => (Err e, s1)
      | Ok n =>
          let s2 := with_number s1 i (Some n) in
          match draw_sections (ps_sections s) p with
          | Err e => (Err e, s2)
          | Ok p' => (Ok tt, with_pages s2 (ps_pages s ++ [go_to_beginning p']))
          end
      end
  end.
End Float.

(** pdf.py 515-541 [_position_and_size]: the page with the moved cursor and
    the returned tuple. *)
Definition position_and_size (p : page) (x y w h : option Q) : page * (Q * Q * Q * Q) :=
  let p1 := match x with Some v => set_cursor p v (p_yb p) | None => p end in
  let p2 := match y with Some v => set_y p1 v | None => p1 end in
  let w' := match w with Some v => v | None => (p_width p2 - p_mr p2 - p_x p2)%Q end in
  let h' := match h with Some v => v | None => (p_height p2 - p_mb p2 - get_y p2)%Q end in
  (p2, (p_x p2, p_yb p2, w', h')).

(** ** Proofs *)

Lemma dupdate_dget {V} (e : list (str * V)) : forall d k,
  NoDup (keys e) ->
  dget k (dupdate d e) = match dget k e with Some v => Some v | None => dget k d end.
Proof.
  induction e as [|[k' v'] e IH]; intros d k Hn; cbn [dupdate dget]; [reflexivity|].
  inversion Hn as [|? ? Hni Hn' Heq]; subst. rewrite IH by exact Hn'.
  destruct (str_eqb k k') eqn:E.
  - apply str_eqb_eq in E. subst k'. apply dget_none in Hni. rewrite Hni.
    apply dget_dset_same.
  - destruct (dget k e); [reflexivity|]. apply dget_dset_other.
    intros ->. rewrite str_eqb_refl in E. discriminate.
Qed.

Lemma dupdate_keys {V} (e : list (str * V)) : forall d x,
  In x (keys (dupdate d e)) <-> In x (keys d) \/ In x (keys e).
Proof.
  induction e as [|[k v] e IH]; intros d x; cbn [dupdate]; [cbn; tauto|].
  rewrite IH, keys_dset. unfold keys. cbn [map fst In]. intuition congruence.
Qed.

Lemma draw_sections_geom l : forall p p', draw_sections l p = Ok p' ->
  go_to_beginning p' = go_to_beginning p.
Proof.
  induction l as [|f l IH]; intros p p' H; cbn [draw_sections] in H; [congruence|].
  destruct (f p) as [c|]; [|discriminate]. cbn [bind] in H. apply IH in H.
  rewrite H. reflexivity.
Qed.

(** Specification of the arguments of [add_page]. *)
Inductive size_is : psize -> Q * Q -> Prop :=
| size_square q : size_is (PNum q) (q, q)
| size_pair w h : size_is (PSeq [w; h]) (w, h)
| size_named s wh : In (s, wh) page_sizes -> size_is (PName s) wh.

Lemma page_sizes_nodup : NoDup (keys page_sizes).
Proof. repeat constructor; vm_compute; intuition discriminate. Qed.

Lemma dget_complete {V} k (v : V) d : NoDup (keys d) -> In (k, v) d -> dget k d = Some v.
Proof.
  induction d as [|[k' v'] d IH]; intros Hn Hin; [destruct Hin|].
  inversion Hn as [|? ? Hni Hn' Heq]; subst. cbn [dget].
  destruct Hin as [[= -> ->]|Hin]; [rewrite str_eqb_refl; reflexivity|].
  destruct (str_eqb k k') eqn:E; [|auto]. apply str_eqb_eq in E. subst k'.
  exfalso. apply Hni. change k with (fst (k, v)). apply in_map. exact Hin.
Qed.

Lemma size_is_pair p wh : size_is p wh <-> page_pair p = Ok wh.
Proof.
  split.
  - intros [q|w h|s wh' Hin]; try reflexivity. unfold page_pair. cbn [get_page_size].
    rewrite (dget_complete _ _ _ page_sizes_nodup Hin). destruct wh'; reflexivity.
  - unfold page_pair. destruct p as [q|s|l|]; cbn [get_page_size].
    + intros [= <-]. constructor.
    + destruct (dget s page_sizes) as [[w h]|] eqn:E; [|discriminate].
      intros [= <-]. constructor. now apply dget_in.
    + cbn [bind]. destruct l as [|a [|b [|c r]]]; try discriminate. intros [= <-]. constructor.
    + discriminate.
Qed.

(** The side [k] of the new page: the override, else the default, else 0. *)
Definition side_spec (k : str) (over dflt : list (str * Q)) : Q :=
  match dget k over with
  | Some v => v
  | None => match dget k dflt with Some v => v | None => (0#1)%Q end
  end.
Definition only_sides (d : list (str * Q)) : Prop :=
  NoDup (keys d) /\ forall k, In k (keys d) -> In k sides.

Lemma only_sides_ok d : (forall k, In k (keys d) -> In k sides) ->
  forallb (fun kv : str * Q => existsb (str_eqb (fst kv)) sides) d = true.
Proof.
  intros H. apply forallb_forall. intros kv Hin. apply existsb_exists.
  exists (fst kv). split; [|apply str_eqb_refl]. apply H. now apply in_map.
Qed.

Theorem add_page_spec float_of s size rot margin w h over n :
  (size = None /\ (w, h) = (ps_w s, ps_h s) \/ exists p, size = Some p /\ size_is p (w, h)) ->
  (margin = None /\ over = [] \/ exists m, margin = Some m /\ parse_margin float_of m = Ok over) ->
  only_sides over -> only_sides (ps_margin s) ->
  page_number s (List.length (ps_pages s)) = Ok n ->
  (forall f p, In f (ps_sections s) -> is_ok (f p) = true) ->
  let rotated := match rot with Some b => b | None => ps_rot s end in
  exists s' p, add_page float_of s size rot margin = (Ok tt, s') /\
    s' = with_number (with_pages s (ps_pages s ++ [p])) (List.length (ps_pages s)) (Some n) /\
    (p_width p, p_height p) = (if rotated then (h, w) else (w, h)) /\
    p_mt p = side_spec (lit "top") over (ps_margin s) /\
    p_mr p = side_spec (lit "right") over (ps_margin s) /\
    p_mb p = side_spec (lit "bottom") over (ps_margin s) /\
    p_ml p = side_spec (lit "left") over (ps_margin s) /\
    p_x p = p_ml p /\ (get_y p == p_mt p)%Q /\
    (p_cw p == p_width p - p_ml p - p_mr p)%Q /\
    (p_ch p == p_height p - p_mt p - p_mb p)%Q.
Proof.
  intros Hsize Hmargin [Hon Hok] [Hdn Hdk] Hnum Hsec rotated.
  assert (E1 : match size with Some p => page_pair p | None => Ok (ps_w s, ps_h s) end = Ok (w, h)).
  { destruct Hsize as [[-> <-]|(p & -> & Hs)]; [reflexivity|]. now apply size_is_pair. }
  assert (E2 : exists m, match margin with
             | Some m => do e <- parse_margin float_of m; Ok (dupdate (ps_margin s) e)
             | None => Ok (ps_margin s) end = Ok m /\
             (forall k, margin_or_0 k m = side_spec k over (ps_margin s)) /\
             (forall k, In k (keys m) -> In k sides)).
  { destruct Hmargin as [[-> ->]|(m & -> & Hm)].
    - exists (ps_margin s). auto.
    - rewrite Hm. cbn [bind]. exists (dupdate (ps_margin s) over). split; [reflexivity|]. split.
      + intros k. unfold margin_or_0, side_spec. rewrite dupdate_dget by exact Hon.
        destruct (dget k over); reflexivity.
      + intros k Hk. apply dupdate_keys in Hk as [Hk|Hk]; auto. }
  destruct E2 as (m & E2 & Hside & Hkeys).
  unfold add_page. rewrite E1. cbn [bind]. rewrite E2. cbn [bind]. cbv zeta.
  fold rotated. set (wh := if rotated then (snd (w, h), fst (w, h)) else (w, h)).
  unfold new_page. rewrite only_sides_ok by exact Hkeys. cbv iota.
  set (p0 := go_to_beginning _).
  assert (Hpn : page_number (with_number (with_pages s (ps_pages s ++ [p0]))
            (List.length (ps_pages s)) (ps_number s)) (List.length (ps_pages s)) = Ok n)
    by exact Hnum.
  rewrite Hpn.
  assert (Hd : exists p', draw_sections (ps_sections s) p0 = Ok p').
  { clear - Hsec. clearbody p0. revert p0. induction (ps_sections s) as [|f l IH]; intros p0; cbn [draw_sections]; [eauto|].
    pose proof (Hsec f p0 (or_introl eq_refl)) as Hf. destruct (f p0) as [c|]; [|discriminate].
    cbn [bind]. apply IH. intros g p Hg. apply Hsec. now right. }
  destruct Hd as [p' Hd]. rewrite Hd. apply draw_sections_geom in Hd.
  eexists _, (go_to_beginning p'). split; [reflexivity|]. split; [reflexivity|].
  rewrite Hd. unfold p0. cbn. unfold get_y. cbn.
  rewrite !Hside. split.
  { unfold wh. destruct rotated; reflexivity. }
  repeat split; try reflexivity; lra.
Qed.

(** ** The cursor *)
Theorem y_set_get p v : (get_y (set_y p v) == v)%Q.
Proof. unfold get_y, set_y. cbn. lra. Qed.

Theorem moves_down hs : forall p,
  let q := fold_left move_down hs p in
  (get_y q == get_y p + fold_right Qplus (0#1) hs)%Q /\ p_x q = p_x p /\
  p_width q = p_width p /\ p_height q = p_height p.
Proof.
  induction hs as [|h hs IH]; intros p; cbn [fold_left fold_right].
  - repeat split. lra.
  - specialize (IH (move_down p h)). cbv zeta in *. destruct IH as (H1 & H2 & H3 & H4).
    rewrite H2, H3, H4. repeat split. rewrite H1.
    assert (get_y (move_down p h) == get_y p + h)%Q by apply y_set_get. lra.
Qed.

Theorem position_spec p x y w h :
  let '(p', (x', yb', w', h')) := position_and_size p x y w h in
  x' = (match x with Some v => v | None => p_x p end) /\
  (p_height p - yb' == match y with Some v => v | None => get_y p end)%Q /\
  (match w with Some v => w' = v | None => (x' + w' == p_width p - p_mr p)%Q end) /\
  (match h with Some v => h' = v | None => (yb' - h' == p_mb p)%Q end) /\
  p_x p' = x' /\ p_yb p' = yb'.
Proof.
  unfold position_and_size, get_y, set_y. destruct x, y, w, h; cbn; repeat split; try reflexivity; lra.
Qed.

(** ** Page numbers *)
Lemma add_page_number float_of s size rot margin s' :
  add_page float_of s size rot margin = (Ok tt, s') ->
  ps_index s' = List.length (ps_pages s) /\
  List.length (ps_pages s') = S (List.length (ps_pages s)) /\
  ps_offset s' = ps_offset s /\ ps_roman s' = ps_roman s /\
  exists n, page_number s (List.length (ps_pages s)) = Ok n /\ ps_number s' = Some n.
Proof.
  unfold add_page. destruct (do wh <- _; _) as [p|e]; [|discriminate]. cbv zeta.
  destruct (page_number _ _) as [n|e] eqn:E; [|discriminate].
  destruct (draw_sections _ _) as [p'|e]; [|discriminate].
  intros [= <-]. cbn. rewrite app_length. cbn [List.length].
  repeat split; [lia|]. exists n. split; reflexivity.
Qed.

Definition page_args := (option psize * option bool * option mvalue)%type.
Inductive pages_run (float_of : str -> res Q) : pages_state -> list page_args -> pages_state -> Prop :=
| run_nil s : pages_run float_of s [] s
| run_add s size rot m s1 rest s2 : add_page float_of s size rot m = (Ok tt, s1) ->
    pages_run float_of s1 rest s2 -> pages_run float_of s ((size, rot, m) :: rest) s2.

Theorem pages_run_number float_of s args s' : pages_run float_of s args s' ->
  args <> [] ->
  let i := (List.length (ps_pages s) + List.length args - 1)%nat in
  let n := (Z.of_nat i + 1 + ps_offset s)%Z in
  ps_index s' = i /\ List.length (ps_pages s') = S i /\
  (ps_roman s = false -> ps_number s' = Some (dec_Z n)) /\
  (ps_roman s = true -> exists r, ps_number s' = Some r /\ roman_value r = n /\ canonical_roman r = true).
Proof.
  induction 1 as [s|s size rot m s1 rest s2 Ha Hr IH]; intros Hne; [congruence|].
  apply add_page_number in Ha as (Hi & Hl & Ho & Hro & n & Hn & Hnum).
  destruct rest as [|a rest].
  - inversion Hr; subst. cbn [List.length].
    replace (List.length (ps_pages s) + 1 - 1)%nat with (List.length (ps_pages s)) by lia.
    cbv zeta. split; [exact Hi|]. split; [exact Hl|].
    unfold page_number in Hn. split; intros Hrom; rewrite Hrom in Hn.
    + injection Hn as <-. exact Hnum.
    + exists n. split; [exact Hnum|].
      destruct (Z_lt_dec 0 (Z.of_nat (List.length (ps_pages s)) + 1 + ps_offset s)) as [H1|H1];
      [destruct (Z_lt_dec (Z.of_nat (List.length (ps_pages s)) + 1 + ps_offset s) 4000) as [H2|H2]|].
      * destruct (to_roman_ok _ (conj H1 H2)) as (r & Hr1 & Hr2 & Hr3).
        rewrite Hr1 in Hn. injection Hn as <-. auto.
      * rewrite to_roman_err in Hn by lia. discriminate.
      * rewrite to_roman_err in Hn by lia. discriminate.
  - specialize (IH ltac:(discriminate)). cbv zeta in *. cbn [List.length] in *.
    rewrite Hl, Ho, Hro in IH.
    replace (List.length (ps_pages s) + S (S (List.length rest)) - 1)%nat
      with (S (List.length (ps_pages s)) + S (List.length rest) - 1)%nat by lia.
    exact IH.
Qed.

(** document.py 298-303: the page numbering keys of a section's style. *)
Definition section_numbering (s : pages_state) (offset : option Z) (style : option str)
    (reset : bool) : pages_state :=
  let o1 := match offset with Some o => o | None => ps_offset s end in
  let r := match style with Some t => str_eqb t (lit "roman") | None => ps_roman s end in
  let o2 := if reset then (- Z.of_nat (List.length (ps_pages s)))%Z else o1 in
  mkPS (ps_w s) (ps_h s) (ps_rot s) (ps_margin s) (ps_pages s) (ps_index s) (ps_number s)
    o2 r (ps_sections s).

Theorem section_reset_numbers float_of s offset style args s' :
  pages_run float_of (section_numbering s offset style true) args s' -> args <> [] ->
  let k := Z.of_nat (List.length args) in
  (style = Some (lit "arabic") -> ps_number s' = Some (dec_Z k)) /\
  (style = Some (lit "roman") ->
     exists r, ps_number s' = Some r /\ roman_value r = k /\ canonical_roman r = true).
Proof.
  intros H Hne. apply pages_run_number in H; [|exact Hne]. cbv zeta in *.
  destruct H as (_ & _ & H1 & H2).
  assert (En : (Z.of_nat (List.length (ps_pages s) + List.length args - 1) + 1 +
          - Z.of_nat (List.length (ps_pages s)) = Z.of_nat (List.length args))%Z).
  { destruct args; [congruence|]. cbn [List.length]. lia. }
  cbn in H1, H2. rewrite En in H1, H2. split; intros ->.
  - apply H1. reflexivity.
  - apply H2. reflexivity.
Qed.
