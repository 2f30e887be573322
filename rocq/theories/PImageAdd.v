(** Opening an image and adding it to the page (C67, C68). *)
From Coq Require Import String QArith Qabs Lia Lqa.
From Verif Require Import Py PyStr Jpeg Gfx PageGeom ImageAdd.
Open Scope N_scope.
Open Scope list_scope.

(** ** C67 *)

(** The page as a reader shows it: in the space of an image the left bottom
    corner is (0, 0) and the right top corner is (1, 1) (ISO 32000-1, 8.9.5).
    [shown_at r ops nm x y w h]: the reader paints the image [nm] and nothing else,
    on the rectangle of left bottom corner (x, y), width w and height h, and is
    then in the state in which it was. *)
Definition shown_at (r : reader) (ops : list gop) (nm : str) (x y w h : Q) : Prop :=
  exists m, execs ops r = (r, [PDo m nm]) /\
    forall u v, let a := apply m (u, v) in let b := apply (g_ctm (r_gs r)) (x + u * w, y + v * h)%Q in
      (fst a == fst b)%Q /\ (snd a == snd b)%Q.
(** The size asked for; a side that is not given follows from the other one, in
    the proportion of the image; without any the image is as wide as the
    contents of the page. *)
Definition in_proportion (w h : Q) (iw ih : N) : Prop :=
  (w * inject_Z (Z.of_N ih) == h * inject_Z (Z.of_N iw))%Q.
Definition size_asked (p : page) (iw ih : N) (width height : option Q) (w h : Q) : Prop :=
  match width, height with
  | Some w0, Some h0 => w = w0 /\ h = h0
  | Some w0, None => w = w0 /\ in_proportion w h iw ih
  | None, Some h0 => h = h0 /\ in_proportion w h iw ih
  | None, None => w = p_cw p /\ in_proportion w h iw ih
  end.
Definition or_else {A} (o : option A) (d : A) : A := match o with Some a => a | None => d end.

Section Round.
Variable round3 : Q -> Q.

Lemma quotient_ok a b c : c <> 0 -> exists q, quotient a b c = Ok q /\ (q * inject_Z (Z.of_N c) == a * inject_Z (Z.of_N b))%Q.
Proof.
  intros Hc. unfold quotient. destruct (c =? 0) eqn:E; [lia|]. eexists. split; [reflexivity|].
  field. intros H. apply Hc. unfold Qeq in H. cbn in H. lia.
Qed.

Lemma image_shown nm w h x y r : shown_at r (image_stream round3 nm w h x y) nm (round3 x) (round3 y) (round3 w) (round3 h).
Proof.
  destruct r as [[m fc sc w0 cap dash font rise sp] stk path line].
  eexists. split; [reflexivity|]. intros u v. cbn. split; ring.
Qed.

(** For every image that is not empty, every page and every position of its
    cursor and all arguments: what is shown, and where the cursor is
    afterwards.  The coordinates of the position are those of the page (from
    its bottom): [y] is the bottom of the image, not its top as documented. *)
Theorem C67_image_partial p nm iw ih x y width height mv : iw <> 0 -> ih <> 0 ->
  exists ops p' w h, add_image round3 p nm iw ih x y width height mv = Ok (ops, p') /\
    size_asked p iw ih width height w h /\
    (forall r, shown_at r ops nm (round3 (or_else x (p_x p))) (round3 (or_else y (p_yb p))) (round3 w) (round3 h)) /\
    (p_x p' == or_else x (p_x p) + match mv with MNext => w | _ => 0 end)%Q /\
    (p_yb p' == or_else y (p_yb p) - match mv with MBottom => h | _ => 0 end)%Q /\
    go_to_beginning p' = go_to_beginning p.
Proof.
  intros Hw Hh.
  assert (S : exists w h, image_size p iw ih width height = Ok (w, h) /\ size_asked p iw ih width height w h).
  { destruct width as [w|], height as [h|]; unfold image_size, size_asked, in_proportion.
    - eauto.
    - destruct (quotient_ok w ih iw Hw) as (q & -> & Hq). cbn [bind]. exists w, q. split; [reflexivity|]. split; [reflexivity|]. now rewrite Hq.
    - destruct (quotient_ok h iw ih Hh) as (q & -> & Hq). cbn [bind]. exists q, h. split; [reflexivity|]. split; [reflexivity|]. now rewrite Hq.
    - destruct (quotient_ok (p_cw p) ih iw Hw) as (q & -> & Hq). cbn [bind]. exists (p_cw p), q. split; [reflexivity|]. split; [reflexivity|]. now rewrite Hq. }
  destruct S as (w & h & E & S). unfold add_image. rewrite E. cbn [bind].
  eexists _, _, w, h. split; [reflexivity|]. split; [exact S|]. split; [intros r; apply image_shown|].
  destruct mv; cbn; unfold or_else, get_y; destruct x, y; cbn; repeat split; lra.
Qed.

(** The documentation says that [y] is the position of the top of the image, and
    that the cursor goes to its bottom.  Whatever the arguments are, an image
    that is higher than the rounding lies above the position instead, and the
    cursor goes down from the bottom of the image by its height. *)
Theorem C67_top_refuted (round_near : forall q, (Qabs (round3 q - q) <= 1 # 2000)%Q) p nm iw ih x y width height ops p' :
  add_image round3 p nm iw ih x y width height MBottom = Ok (ops, p') ->
  exists w h bottom top, image_size p iw ih width height = Ok (w, h) /\
    top = (bottom + round3 h)%Q /\
    (forall r, shown_at r ops nm (round3 (or_else x (p_x p))) bottom (round3 w) (round3 h)) /\
    (Qabs (bottom - or_else y (p_yb p)) <= 1 # 2000)%Q /\
    ((1 # 500) < h -> or_else y (p_yb p) < top /\ p_yb p' < bottom - h * (1 # 2))%Q.
Proof.
  unfold add_image. destruct (image_size p iw ih width height) as [[w h]|e] eqn:E; [|discriminate]. cbn [bind].
  intros H. injection H as <- <-. eexists w, h, (round3 (or_else y (p_yb p))), _. split; [reflexivity|]. split; [reflexivity|].
  split; [intros r; apply image_shown|]. split; [apply round_near|]. intros Hh.
  pose proof (round_near (or_else y (p_yb p))) as H1. pose proof (round_near h) as H2.
  apply Qabs_Qle_condition in H1, H2. cbn. unfold or_else, get_y in *. cbn in *. destruct y; cbn in *; split; lra.
Qed.
End Round.
Print Assumptions C67_image_partial.
Print Assumptions C67_top_refuted.

(** An image of 600 by 400 at the beginning of a page of 595 by 842 with margins
    of 60, 40 high: it is 60 wide, and covers the margin above the contents. *)
Definition ex_page : page := go_to_beginning (mkPage 595 842 60 60 60 60 0 0 0 0).
Example C67_applies : exists ops p',
  add_image (fun q => q) ex_page (lit "Im0") 600 400 None None None (Some 40%Q) MBottom = Ok (ops, p') /\
  ops = [GSave; GConcat (Qdiv (40 * 600) 400) 0 0 40 60 782; GDo (lit "Im0"); GRestore] /\
  (p_yb p' == 742)%Q /\ (Qdiv (40 * 600) 400 == 60)%Q.
Proof. eexists _, _. split; [vm_compute; reflexivity|]. repeat split; reflexivity. Qed.

(** ** C68 *)

(** Which format an extension names: "jpg" or "jpeg", or "png", in any case,
    with a dot before and blanks around. *)
Definition same_letters (a b : str) : Prop := Forall2 (fun x y => x = y \/ (97 <= y <= 122 /\ x + 32 = y)) a b.
Definition blank (s : str) : Prop := Forall (fun c => is_space c = true) s.
Inductive names : format -> str -> Prop :=
| names_one f dot l word r good : (dot = [] \/ dot = [46]) -> blank l -> blank r -> same_letters word good ->
    In (f, good) [(Jpg, lit "jpg"); (Jpg, lit "jpeg"); (Png, lit "png")] -> names f (dot ++ l ++ word ++ r).
(** The extension of a path: what follows its last dot. *)
Definition extension_of (path e : str) : Prop :=
  ~ In 46 e /\ ((exists before, path = before ++ 46 :: e) \/ path = e).

Lemma has_dot c r : existsb (N.eqb c) r = true <-> In c r.
Proof. rewrite existsb_exists. split; [intros (x & H & E); apply N.eqb_eq in E; now subst|intros H; exists c; split; [exact H|apply N.eqb_refl]]. Qed.
Lemma after_last_dot_ok path : extension_of path (after_last_dot path).
Proof.
  unfold extension_of. induction path as [|c r [IH1 IH2]]; cbn [after_last_dot]; [cbn; auto|].
  destruct (existsb (N.eqb 46) r) eqn:E.
  - split; [exact IH1|]. left. destruct IH2 as [[b H]| H].
    + exists (c :: b). cbn [app]. now rewrite <- H.
    + exfalso. apply IH1. rewrite <- H. now apply has_dot.
  - assert (Hn : ~ In 46 r) by (rewrite <- has_dot, E; discriminate).
    destruct (c =? 46) eqn:E2.
    + apply N.eqb_eq in E2. subst c. split; [exact Hn|]. left. exists []. reflexivity.
    + split; [|auto]. intros [H|H]; [lia|auto].
Qed.
Lemma extension_of_one path e : extension_of path e -> e = after_last_dot path.
Proof.
  intros [H1 [[b ->]| ->]].
  - induction b as [|c b IH]; cbn [app after_last_dot].
    + destruct (existsb (N.eqb 46) e) eqn:E; [apply has_dot in E; contradiction|reflexivity].
    + assert (E : existsb (N.eqb 46) (b ++ 46 :: e) = true) by (apply has_dot, in_or_app; right; now left). now rewrite E.
  - destruct e as [|c r]; [reflexivity|]. cbn [after_last_dot]. destruct (existsb (N.eqb 46) r) eqn:E.
    + apply has_dot in E. exfalso. apply H1. now right.
    + destruct (c =? 46) eqn:E2; [|reflexivity]. exfalso. apply H1. left. lia.
Qed.

Lemma same_letters_lower a b : Forall (fun c => 97 <= c <= 122) b -> (same_letters a b <-> py_lower a = b).
Proof.
  intros Hb. unfold same_letters, py_lower. split.
  - induction 1 as [|x y a b H1 H2 IH]; [reflexivity|]. cbn [map]. inversion Hb as [|? ? G1 G2]; subst. rewrite IH by exact G2. f_equal.
    unfold lower_ascii. destruct ((65 <=? x) && (x <=? 90)) eqn:E; lia.
  - revert b Hb. induction a as [|x a IH]; intros b Hb H; cbn [map] in H; subst b; constructor.
    + inversion Hb as [|? ? G1 G2]; subst. unfold lower_ascii in *. destruct ((65 <=? x) && (x <=? 90)) eqn:E; lia.
    + apply IH; [|reflexivity]. now inversion Hb.
Qed.
Lemma lstrip_split s : exists l, blank l /\ s = l ++ lstrip s.
Proof.
  induction s as [|c s (l & H1 & H2)]; [exists []; split; [constructor|reflexivity]|]. cbn [lstrip]. destruct (is_space c) eqn:E.
  - exists (c :: l). split; [constructor; assumption|]. cbn [app]. now rewrite <- H2.
  - exists []. split; [constructor|reflexivity].
Qed.
Lemma strip_split s : exists l r, blank l /\ blank r /\ s = l ++ py_strip s ++ r.
Proof.
  unfold py_strip. destruct (lstrip_split s) as (l & Hl & E). destruct (lstrip_split (rev (lstrip s))) as (r & Hr & E2).
  exists l, (rev r). split; [exact Hl|]. split; [apply Forall_rev; exact Hr|].
  rewrite <- rev_app_distr, <- E2, rev_involutive. exact E.
Qed.
Lemma blank_b l : blank l -> forallb is_space l = true.
Proof. intros H. apply forallb_forall. intros x Hx. unfold blank in H. rewrite Forall_forall in H. auto. Qed.

Lemma good_letters f good : In (f, good) [(Jpg, lit "jpg"); (Jpg, lit "jpeg"); (Png, lit "png")] ->
  Forall (fun c => 97 <= c <= 122) good /\ format_of good = Some f /\ good <> [].
Proof. intros [H|[H|[H|[]]]]; injection H as <- <-; (split; [repeat constructor; vm_compute; discriminate|split; [reflexivity|discriminate]]). Qed.
Lemma no_blank word good : same_letters word good -> Forall (fun c => 97 <= c <= 122) good ->
  Forall (fun c => 65 <= c <= 122) word.
Proof. induction 1 as [|x y a b H1 H2 IH]; intros H; constructor; inversion H as [|? ? G1 G2]; subst; [lia|auto]. Qed.

Lemma format_names e f : format_of (normalize e) = Some f <-> names f e.
Proof.
  split.
  - unfold normalize. set (b := match e with [] => e | c :: r => if c =? 46 then r else e end).
    assert (Hb : exists dot, (dot = [] \/ dot = [46]) /\ e = dot ++ b).
    { unfold b. destruct e as [|c r]; [exists []; auto|]. destruct (c =? 46) eqn:E; [|exists []; auto]. apply N.eqb_eq in E. subst c. exists [46]. auto. }
    clearbody b. destruct Hb as (dot & Hd & ->). intros H.
    destruct (strip_split b) as (l & r & Hl & Hr & E).
    assert (G : exists good, py_lower (py_strip b) = good /\ In (f, good) [(Jpg, lit "jpg"); (Jpg, lit "jpeg"); (Png, lit "png")]).
    { eexists. split; [reflexivity|]. unfold format_of in H.
      destruct (str_eqb (py_lower (py_strip b)) (lit "jpg")) eqn:E1; [apply str_eqb_eq in E1; rewrite E1; injection H as <-; left; reflexivity|].
      destruct (str_eqb (py_lower (py_strip b)) (lit "jpeg")) eqn:E2; [apply str_eqb_eq in E2; rewrite E2; injection H as <-; right; left; reflexivity|].
      cbn [orb] in H. destruct (str_eqb (py_lower (py_strip b)) (lit "png")) eqn:E3; [|discriminate].
      apply str_eqb_eq in E3. rewrite E3. injection H as <-. right; right; left; reflexivity. }
    destruct G as (good & G1 & G2). rewrite E. econstructor; eauto. apply same_letters_lower; [apply (good_letters _ _ G2)|exact G1].
  - intros [f' dot l word r good Hd Hl Hr Hw Hg]. destruct (good_letters _ _ Hg) as (G1 & G2 & G3).
    pose proof (no_blank _ _ Hw G1) as Hn.
    assert (Hs : py_strip (l ++ word ++ r) = word).
    { apply strip_pad; [now apply blank_b|now apply blank_b|]. apply forallb_forall. intros x Hx. rewrite Forall_forall in Hn. apply Hn in Hx.
      apply negb_true_iff. unfold is_space. lia. }
    assert (Hf : match l ++ word ++ r with c :: _ => c <> 46 | [] => True end).
    { destruct l as [|c l]; cbn [app].
      - destruct word as [|c word]; [destruct good; [congruence|inversion Hw]|]. cbn [app]. inversion Hn; subst. lia.
      - inversion Hl as [|? ? K _]; subst. intros ->. discriminate. }
    assert (Hb : normalize (dot ++ l ++ word ++ r) = py_lower word).
    { unfold normalize. f_equal. rewrite <- Hs at 2. f_equal. destruct Hd as [-> | ->]; cbn [app]; [|reflexivity].
      destruct (l ++ word ++ r) as [|c t]; [reflexivity|]. destruct (c =? 46) eqn:E; [lia|reflexivity]. }
    rewrite Hb. apply same_letters_lower in Hw; [|exact G1]. now rewrite Hw.
Qed.

Section Files.
Variable fs : str -> res bytes.
Variable pillow : bytes -> nat -> res bytes.
Variable left_at : bytes -> nat -> nat.
Notation open := (pdf_image fs pillow left_at).

(** A file that is opened is closed, whatever happens after it was opened and
    whatever the arguments are; a stream that is given is never closed. *)
Theorem C68_files s e n :
  let '(_, events, _) := open s e n in
  (events = [] /\ forall p, s = FromStr p \/ s = FromPath p -> exists x, fs p = Err x) \/
  exists p, (s = FromStr p \/ s = FromPath p) /\ events = [Opened p; Closed p].
Proof.
  unfold pdf_image, try_block, open_file. destruct s as [p|p|d pos|]; cbn [is_stream].
  - destruct (fs p) as [d|x] eqn:E.
    + destruct e; [destruct (read_image _ _ _ _ _ _)|destruct (read_image _ _ _ _ _ _)|]; right; exists p; (split; [auto|reflexivity]).
    + left. split; [reflexivity|]. intros q [H|H]; [injection H as <-; eauto|discriminate].
  - destruct (fs p) as [d|x] eqn:E.
    + destruct e; [destruct (read_image _ _ _ _ _ _)|destruct (read_image _ _ _ _ _ _)|]; right; exists p; (split; [auto|reflexivity]).
    + left. split; [reflexivity|]. intros q [H|H]; [discriminate|injection H as <-; eauto].
  - destruct n, e; try destruct (read_image _ _ _ _ _ _); left; (split; [reflexivity|intros q [H|H]; discriminate]).
  - left. split; [reflexivity|]. intros q [H|H]; discriminate.
Qed.

(** What an image of a format is, read from bytes at a position: the bytes
    embedded and the size. A PNG is what Pillow makes of it. *)
Definition image_from (f : format) (d : bytes) (pos : nat) (im : image) : Prop :=
  match f with
  | Jpg => im_data im = d /\ jpeg_chain (skipn pos d) (im_jpeg im)
  | Png => pillow d pos = Ok (im_data im) /\ jpeg_chain (im_data im) (im_jpeg im)
  end.

Lemma read_jpg_spec n d pos im : fst (read_jpg left_at n d pos) = Ok im <->
  im_name im = n /\ im_data im = d /\ jpeg_chain (skipn pos d) (im_jpeg im).
Proof.
  unfold read_jpg. destruct (parse_jpg_spec (skipn pos d)) as [H _].
  destruct (parse_jpg (skipn pos d)) as [j|x]; cbn [fst].
  - split.
    + intros E. injection E as <-. cbn. repeat split. now apply H.
    + destruct im as [n' j' d']. cbn. intros (-> & -> & Hj). apply H in Hj. now injection Hj as ->.
  - split; [discriminate|]. intros (_ & _ & Hj). apply H in Hj. discriminate.
Qed.
Lemma read_image_spec n e d pos im : fst (read_image pillow left_at n e d pos) = Ok im <->
  im_name im = n /\ exists f, names f e /\ image_from f d pos im.
Proof.
  unfold read_image. split.
  - destruct (format_of (normalize e)) as [f|] eqn:E; [|discriminate]. apply format_names in E. destruct f.
    + intros H. apply read_jpg_spec in H as (H1 & H2 & H3). split; [exact H1|]. exists Jpg. split; [exact E|]. split; assumption.
    + unfold read_png. cbn [fst]. destruct (pillow d pos) as [jpg|x] eqn:Ep; [|discriminate]. cbn [bind]. intros H. apply read_jpg_spec in H as (H1 & H2 & H3).
      split; [exact H1|]. exists Png. split; [exact E|]. split; [rewrite H2; exact Ep|]. rewrite H2. exact H3.
  - intros (H1 & f & H2 & H3). apply format_names in H2. rewrite H2. destruct f.
    + apply read_jpg_spec. destruct H3. auto.
    + destruct H3 as [H3 H4]. unfold read_png. cbn [fst]. rewrite H3. cbn [bind]. apply read_jpg_spec. auto.
Qed.

(** The extension that counts: the one given, else the one of the path. *)
Definition counts (path : str) (e : ext_arg) (x : str) : Prop :=
  e = EStr x \/ (e = ENone /\ extension_of path x).

(** A path as text: exactly when there is an image, and which one. *)
Theorem C68_path_partial p e n im : fst (fst (open (FromStr p) e n)) = Ok im <->
  im_name im = p /\ exists d x f, fs p = Ok d /\ counts p e x /\ names f x /\ image_from f d 0 im.
Proof.
  unfold pdf_image, try_block, open_file. destruct (fs p) as [d|er] eqn:E.
  2:{ cbn. split; [discriminate|]. intros (_ & d & x & f & H & _). discriminate. }
  assert (K : forall x, fst (read_image pillow left_at p x d 0) = Ok im -> im_name im = p /\ exists f, names f x /\ image_from f d 0 im) by (intros x H; now apply read_image_spec).
  destruct e as [|x|].
  - pose proof (K (after_last_dot p)) as K1. destruct (read_image pillow left_at p (after_last_dot p) d 0) as [r pos] eqn:Er. cbn [fst] in *. split.
    + intros H. destruct (K1 H) as (H1 & f & H2 & H3). split; [exact H1|]. exists d, (after_last_dot p), f. split; [reflexivity|]. split; [right; split; [reflexivity|apply after_last_dot_ok]|]. auto.
    + intros (H1 & d' & x & f & H2 & H3 & H4 & H5). injection H2 as <-. destruct H3 as [H3|[_ H3]]; [discriminate|]. apply extension_of_one in H3. subst x.
      replace r with (fst (read_image pillow left_at p (after_last_dot p) d 0)) by (rewrite Er; reflexivity). apply read_image_spec. eauto.
  - pose proof (K x) as K1. destruct (read_image pillow left_at p x d 0) as [r pos] eqn:Er. cbn [fst] in *. split.
    + intros H. destruct (K1 H) as (H1 & f & H2 & H3). split; [exact H1|]. exists d, x, f. split; [reflexivity|]. split; [left; reflexivity|]. auto.
    + intros (H1 & d' & x' & f & H2 & H3 & H4 & H5). injection H2 as <-. destruct H3 as [H3|[H3 _]]; [|discriminate]. injection H3 as <-.
      replace r with (fst (read_image pillow left_at p x d 0)) by (rewrite Er; reflexivity). apply read_image_spec. eauto.
  - cbn [fst]. split; [discriminate|]. intros (_ & d' & x & f & _ & H & _). destruct H as [H|[H _]]; discriminate.
Qed.

(** A stream: exactly when there is an image, and which one; after success the
    stream is at its beginning, so that it can be used again. *)
Theorem C68_stream_partial d pos e n im : fst (fst (open (FromStream d pos) e n)) = Ok im <->
  exists x f, e = EStr x /\ n = Some (im_name im) /\ names f x /\ image_from f d pos im.
Proof.
  unfold pdf_image, try_block. destruct n as [n|], e as [|x|]; cbn [fst is_stream]; try (split; [discriminate|intros (x' & f & H1 & H2 & _); discriminate]).
  pose proof (read_image_spec n x d pos im) as K. destruct (read_image pillow left_at n x d pos) as [r pos']. cbn [fst] in *. split.
  - intros H. apply K in H as (H1 & f & H2 & H3). exists x, f. subst n. auto.
  - intros (x' & f & H1 & H2 & H3 & H4). injection H1 as <-. injection H2 as ->. apply K. eauto.
Qed.
Theorem C68_rewound d pos e n im x : fst (fst (open (FromStream d pos) e n)) = Ok im -> e = EStr x -> names Jpg x ->
  snd (open (FromStream d pos) e n) = O.
Proof.
  intros H -> Hx. unfold pdf_image, try_block in *. destruct n as [n|]; [|discriminate]. unfold read_image in *. apply format_names in Hx. rewrite Hx in *.
  unfold read_jpg in *. destruct (parse_jpg (skipn pos d)); [reflexivity|discriminate].
Qed.

(** The same path as text and as a [Path] gives the same image when its last
    component has a name before the dot and something after it. *)
Theorem C68_same_path_partial dir before x e n : before <> [] -> ~ In 47 before -> ~ In 47 x -> ~ In 46 x -> x <> [] ->
  (dir = [] \/ exists d, dir = d ++ [47]) ->
  open (FromPath (dir ++ before ++ 46 :: x)) e n = open (FromStr (dir ++ before ++ 46 :: x)) e n.
Proof.
  intros Hb H1 H2 H3 Hx Hd. set (p := dir ++ before ++ 46 :: x).
  assert (E1 : after_last_dot p = x). { symmetry. apply extension_of_one. split; [exact H3|]. left. exists (dir ++ before). unfold p. now rewrite <- app_assoc. }
  assert (Hno : forall l, ~ In 47 l -> base_name l = l).
  { induction l as [|c l IH]; intros H; [reflexivity|]. cbn [base_name]. destruct (existsb (N.eqb 47) l) eqn:E; [apply has_dot in E; exfalso; apply H; now right|].
    destruct (c =? 47) eqn:E2; [exfalso; apply H; left; lia|reflexivity]. }
  set (nm := before ++ 46 :: x).
  assert (Hnm : ~ In 47 nm). { unfold nm. intros H. apply in_app_or in H as [H|[H|H]]; [auto|lia|auto]. }
  assert (E2 : base_name p = nm).
  { unfold p. fold nm. destruct Hd as [-> | [d ->]]; [apply Hno; exact Hnm|]. rewrite <- app_assoc. cbn [app]. clear - Hnm. clearbody nm. induction d as [|c d IH]; cbn [app base_name].
    - destruct (existsb (N.eqb 47) nm) eqn:E; [apply has_dot in E; contradiction|]. reflexivity.
    - assert (E : existsb (N.eqb 47) (d ++ 47 :: nm) = true) by (apply has_dot, in_or_app; right; now left). now rewrite E. }
  assert (E3 : after_last_dot nm = x). { symmetry. apply extension_of_one. split; [exact H3|]. left. exists before. reflexivity. }
  assert (E4 : suffix p = 46 :: x).
  { unfold suffix. rewrite E2, E3. replace (existsb (N.eqb 46) nm) with true by (symmetry; apply has_dot; unfold nm; apply in_or_app; right; now left).
    destruct x as [|c x]; [congruence|]. cbn [List.length Nat.eqb negb andb]. destruct before as [|b before]; [congruence|].
    replace (_ <? _)%nat with true; [reflexivity|]. symmetry. apply Nat.ltb_lt. unfold nm. cbn. rewrite app_length. cbn. lia. }
  unfold pdf_image, try_block, open_file. rewrite E1, E4. cbn [is_stream]. destruct (fs p) as [d|er]; [|reflexivity].
  destruct e; try reflexivity.
  assert (E5 : read_image pillow left_at p (46 :: x) d 0 = read_image pillow left_at p x d 0); [|rewrite E5; reflexivity].
  unfold read_image. assert (E6 : normalize (46 :: x) = normalize x); [|rewrite E6; reflexivity]. unfold normalize. cbn [N.eqb]. destruct x as [|c x]; [congruence|].
  destruct (c =? 46) eqn:E; [|reflexivity]. exfalso. apply H3. left. lia.
Qed.
End Files.
Print Assumptions C68_files.
Print Assumptions C68_path_partial.
Print Assumptions C68_stream_partial.
Print Assumptions C68_rewound.
Print Assumptions C68_same_path_partial.

(** A JPEG header: 2 by 3 points, gray. *)
Definition ex_jpg : bytes := [0xFF; 0xD8; 0xFF; 0xC0; 0; 11; 8; 0; 3; 0; 2; 1; 1; 17; 0].
Definition ex_fs (p : str) : res bytes := if str_eqb p (lit "a/b.JPG") || str_eqb p (lit ".jpg") then Ok ex_jpg else Err PyException.
Definition ex_pillow (d : bytes) (pos : nat) : res bytes := Ok ex_jpg.
Definition ex_left (d : bytes) (pos : nat) : nat := pos.
Definition ex_open := pdf_image ex_fs ex_pillow ex_left.
Example C68_applies :
  ex_open (FromStr (lit "a/b.JPG")) ENone None =
    (Ok (mkImage (lit "a/b.JPG") (mkJpeg 8 3 2 (lit "/DeviceGray")) ex_jpg), [Opened (lit "a/b.JPG"); Closed (lit "a/b.JPG")], O) /\
  ex_open (FromPath (lit "a/b.JPG")) ENone None = ex_open (FromStr (lit "a/b.JPG")) ENone None /\
  fst (ex_open (FromStr (lit "a/b.JPG")) (EStr (lit "gif")) None) = (Err NotImplementedError, [Opened (lit "a/b.JPG"); Closed (lit "a/b.JPG")]) /\
  ex_open (FromStream ex_jpg 0) (EStr (lit ".jpeg ")) (Some (lit "n")) =
    (Ok (mkImage (lit "n") (mkJpeg 8 3 2 (lit "/DeviceGray")) ex_jpg), [], O) /\
  ex_open (FromStream ex_jpg 0) (EStr (lit "jpg")) None = (Err TypeError, [], O).
Proof. vm_compute. repeat split. Qed.

(** The same bytes in a stream that was just written (it is at its end) are
    refused, and bytes before the image are embedded with it. *)
Theorem C68_position_refuted :
  (exists d im, fst (fst (ex_open (FromStream d 0) (EStr (lit "jpg")) (Some (lit "n")))) = Ok im /\
     fst (fst (ex_open (FromStream d (List.length d)) (EStr (lit "jpg")) (Some (lit "n")))) = Err ValueError) /\
  (exists d pos im, fst (fst (ex_open (FromStream d pos) (EStr (lit "jpg")) (Some (lit "n")))) = Ok im /\
     ~ exists j, jpeg_chain (im_data im) j).
Proof.
  split.
  - exists ex_jpg. eexists. split; vm_compute; reflexivity.
  - exists (1 :: 2 :: ex_jpg), 2%nat. eexists. split; [vm_compute; reflexivity|]. intros [j Hj]. cbn [im_data] in Hj. inversion Hj.
Qed.
Print Assumptions C68_position_refuted.
(** A file named only by its extension is an image as text and not as a [Path]. *)
Theorem C68_same_path_refuted : exists im,
  fst (fst (ex_open (FromStr (lit ".jpg")) ENone None)) = Ok im /\
  fst (fst (ex_open (FromPath (lit ".jpg")) ENone None)) = Err NotImplementedError.
Proof. eexists. split; vm_compute; reflexivity. Qed.
Print Assumptions C68_same_path_refuted.
