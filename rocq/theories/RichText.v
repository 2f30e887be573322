(** Model of rich text: pdfme/text.py 1197-1353 ([PDFText]). *)
From Coq Require Import String QArith Lia.
From Verif Require Import Py PyStr Parser StreamProofs Gfx Color StyleStr.
Open Scope N_scope.
Open Scope list_scope.

(** The [style] of a part: absent, the name of a format, a dict, something else. *)
Inductive nstyle := NoStyle | Named (s : str) | Given (d : sdict) | BadStyle.
(** The other keys of a paragraph part.  [i_uuid] is the random label that
    [uuid4] would give it; an outline that is not a dict is like none. *)
Record info := mkInfo {
  i_style : nstyle; i_var : option str; i_ids : list str; i_label : option str; i_ref : option str; i_uri : option str;
  i_outline : option (option str * option Z); i_uuid : str }.
(** A paragraph part: what follows the dot in its dot key, the value of this
    key, the other keys.  A number in place of a text is the text [str(n)];
    without a dot key the part is like one with the key "." and an empty
    list. *)
Inductive node := Node (key : str) (value : dval) (i : info)
with dval := DText (s : str) | DSeq (l : list elem) | DBad
with elem := EText (s : str) | ENode (n : node) | EBad.
Inductive root := RText (s : str) | RSeq (l : list elem) | RNode (n : node) | RBad.

(** The parts of the result: the dicts of line breaks and of texts. *)
Record tpart := mkPart { p_style : sdict; p_text : str; p_ids : list str; p_var : option str }.
Inductive item := IBr | IPart (p : tpart).

Section Rich.
Variable family : str -> bool.
(** [pdf.formats], if there is a [pdf]. *)
Variable formats : option (str -> option sdict).
(** ['$outline:' + json.dumps(...)] of text, level and label, and
    [''.join(str(e) for e in elements)]. *)
Variable outline_id : str -> Z -> str -> str.
Variable elements_text : list elem -> str.
(** Equality of style dicts (python's [==]). *)
Variable sty_eqb : sdict -> sdict -> bool.

(** utils.py 32-52 [process_style]. *)
Definition process_style (s : nstyle) : res sdict :=
  match s with
  | NoStyle => Ok []
  | Named n => match formats with
               | None => Ok []
               | Some f => match f n with Some d => Ok d | None => Err KeyError end
               end
  | Given d => Ok d
  | BadStyle => Err PyException
  end.

Definition ids_eqb (a b : list str) : bool := (List.length a =? List.length b)%nat && forallb (fun p => str_eqb (fst p) (snd p)) (combine a b).
Definition var_eqb (a b : option str) : bool :=
  match a, b with Some x, Some y => str_eqb x y | None, None => true | _, _ => false end.
Definition same (a b : tpart) : bool :=
  sty_eqb (p_style a) (p_style b) && str_eqb (p_text a) (p_text b) && ids_eqb (p_ids a) (p_ids b) && var_eqb (p_var a) (p_var b).
(** [self.content.remove(part)]: the first one that is equal. *)
Fixpoint remove (p : tpart) (l : list item) : res (list item) :=
  match l with
  | [] => Err ValueError
  | IBr :: r => do r' <- remove p r; Ok (IBr :: r')
  | IPart q :: r => if same p q then Ok r else do r' <- remove p r; Ok (IPart q :: r')
  end.
Definition is_empty (p : tpart) : bool := match p_text p with [] => true | _ => false end.

(** text.py 1213-1239 [_new_text_part] with a last part. *)
Definition new_text_part (st : sdict) (ids : list str) (var : option str) (cur : tpart) (acc : list item) : res (list item * tpart) :=
  do acc1 <- (if is_empty cur then remove cur acc else Ok acc);
  let p := mkPart st [] ids var in
  Ok (acc1 ++ [IPart p], p).
(** [text_part['text'] += s]: the part is always the last one of the list. *)
Definition add_text (s : str) (acc : list item) (cur : tpart) : list item * tpart :=
  let p := mkPart (p_style cur) (p_text cur ++ s) (p_ids cur) (p_var cur) in
  (removelast acc ++ [IPart p], p).
(** text.py 1328-1336: the lines after the first. *)
Fixpoint add_lines (st : sdict) (ids : list str) (var : option str) (ls : list str) (acc : list item) (cur : tpart)
  : res (list item * tpart) :=
  match ls with
  | [] => Ok (acc, cur)
  | s :: r =>
      do (acc1, cur1) <- new_text_part st ids var cur (acc ++ [IBr]);
      let '(acc2, cur2) := add_text s acc1 cur1 in
      add_lines st ids var r acc2 cur2
  end.

(** text.py 1296-1318: the ids that a part adds. *)
Definition own_ids (i : info) (elements : list elem) : list str :=
  i_ids i
  ++ match i_label i with Some l => [lit "$label:" ++ l] | None => [] end
  ++ match i_ref i with Some l => [lit "$ref:" ++ l] | None => [] end
  ++ match i_uri i with Some l => [lit "$uri:" ++ l] | None => [] end
  ++ match i_outline i with
     | None => []
     | Some (text, level) =>
         let t := match text with Some t => t | None => elements_text elements end in
         let n := match level with Some n => n | None => 1%Z end in
         match i_label i with
         | None => [lit "$label:" ++ i_uuid i; outline_id t n (i_uuid i)]
         | Some l => [outline_id t n l]
         end
     end.
(** text.py 1276-1290 and 1298: the elements of the part. *)
Definition elements_of (v : dval) : res (list elem) :=
  match v with DText s => Ok [EText s] | DSeq l => Ok l | DBad => Err TypeError end.
Definition shown_elements (i : info) (l : list elem) : list elem := match i_var i with Some _ => [EText (lit "0")] | None => l end.

(** text.py 1241-1353 [_recursive_content_parse], for a dict. *)
Fixpoint parse_node (n : node) (style : sdict) (ids : list str) (acc : list item) {struct n} : res (list item) :=
  match n with
  | Node key value i =>
      do attrs <- parse_style_str family key;
      let run (l : list elem) (rest : sdict -> list str -> list item -> tpart -> bool -> res (list item)) :=
        do extra <- process_style (i_style i);
        let st := dupdate (dupdate style attrs) extra in
        let ids1 := ids ++ own_ids i (shown_elements i l) in
        let p := mkPart st [] ids1 (i_var i) in
        rest st ids1 (acc ++ [IPart p]) p false in
      let string (st : sdict) (ids1 : list str) (s : str) (acc : list item) (cur : tpart) (last_string : bool) :=
        match s with
        | [] => Ok (acc, cur, last_string)
        | _ =>
            do (acc1, cur1) <- (if last_string then Ok (acc, cur) else new_text_part st ids1 (i_var i) cur acc);
            match split_on 10 s with
            | [] => Err IndexError
            | l0 :: ls =>
                let '(acc2, cur2) := add_text l0 acc1 cur1 in
                do (acc3, cur3) <- add_lines st ids1 (i_var i) ls acc2 cur2;
                Ok (acc3, cur3, true)
            end
        end in
      let finish (acc : list item) (cur : tpart) := if is_empty cur then remove cur acc else Ok acc in
      match value with
      | DBad => Err TypeError
      | DText s =>
          run [EText s] (fun st ids1 acc cur last =>
            do (acc1, cur1, _) <- string st ids1 (match i_var i with Some _ => lit "0" | None => s end) acc cur last;
            finish acc1 cur1)
      | DSeq l =>
          run l (fun st ids1 acc cur last =>
            match i_var i with
            | Some _ => do (acc1, cur1, _) <- string st ids1 (lit "0") acc cur last; finish acc1 cur1
            | None =>
                (fix loop (l : list elem) (acc : list item) (cur : tpart) (last : bool) {struct l} : res (list item) :=
                   match l with
                   | [] => finish acc cur
                   | EText s :: r => do (acc1, cur1, last1) <- string st ids1 s acc cur last; loop r acc1 cur1 last1
                   | ENode m :: r => do acc1 <- parse_node m st (p_ids cur) acc; loop r acc1 cur false
                   | EBad :: r => Err TypeError
                   end) l acc cur last
            end)
      end
  end.
Definition default_info : info := mkInfo NoStyle None [] None None None None [].
(** text.py 1197-1211 and 1259-1269: the whole content, from the defaults. *)
Definition parse_content (defaults : sdict) (r : root) : res (list item) :=
  match r with
  | RText s => parse_node (Node [] (DText s) default_info) defaults [] []
  | RSeq l => parse_node (Node [] (DSeq l) default_info) defaults [] []
  | RNode n => parse_node n defaults [] []
  | RBad => Err TypeError
  end.

(** ** Specification *)

(** What is to be shown: characters with the style, the ids and the variable
    of the part they are in, and line breaks. *)
Inductive glyph := Brk | Chr (c : N) (st : sdict) (ids : list str) (var : option str).
Definition text_glyphs (st : sdict) (ids : list str) (var : option str) (s : str) : list glyph :=
  map (fun c => if c =? 10 then Brk else Chr c st ids var) s.
(** The ids of a part: its [ids], then a mark for its label, for what it refers
    to, for its address, for the label made for its outline, and the outline. *)
Definition mark (tag : string) (v : option str) : list str := match v with Some x => [lit tag ++ x] | None => [] end.
Definition spec_ids (i : info) (text : str) : list str :=
  i_ids i ++ mark "$label:" (i_label i) ++ mark "$ref:" (i_ref i) ++ mark "$uri:" (i_uri i) ++
  match i_outline i, i_label i with
  | None, _ => []
  | Some (title, level), Some l => [outline_id (match title with Some t => t | None => text end) (match level with Some n => n | None => 1%Z end) l]
  | Some (title, level), None => mark "$label:" (Some (i_uuid i)) ++ [outline_id (match title with Some t => t | None => text end) (match level with Some n => n | None => 1%Z end) (i_uuid i)]
  end.
(** The own style of a part: a dict, or the format with this name. *)
Definition own_style (s : nstyle) : res sdict :=
  match s, formats with
  | Given d, _ => Ok d
  | Named n, Some f => match f n with Some d => Ok d | None => Err KeyError end
  | Named _, None | NoStyle, _ => Ok []
  | BadStyle, _ => Err PyException
  end.
(** The style is that of the parent, overridden by the dot key, overridden by
    the [style]; the ids are those of the parent and its own. *)
Fixpoint glyphs (n : node) (style : sdict) (ids : list str) {struct n} : res (list glyph) :=
  match n with
  | Node key value i =>
      do attrs <- parse_style_str family key;
      do l <- elements_of value;
      do extra <- own_style (i_style i);
      let st := dupdate (dupdate style attrs) extra in
      let ids1 := ids ++ spec_ids i (elements_text (match i_var i with Some _ => [EText (lit "0")] | None => l end)) in
      match i_var i with
      | Some _ => Ok (text_glyphs st ids1 (i_var i) (lit "0"))
      | None =>
          match value with
          | DText s => Ok (text_glyphs st ids1 None s)
          | DSeq l =>
              (fix all (l : list elem) : res (list glyph) :=
                 match l with
                 | [] => Ok []
                 | EText s :: r => do a <- all r; Ok (text_glyphs st ids1 None s ++ a)
                 | ENode m :: r => do g <- glyphs m st ids1; do a <- all r; Ok (g ++ a)
                 | EBad :: r => Err TypeError
                 end) l
          | DBad => Err TypeError
          end
      end
  end.
Definition root_node (r : root) : option node :=
  match r with
  | RText s => Some (Node [] (DText s) default_info)
  | RSeq l => Some (Node [] (DSeq l) default_info)
  | RNode n => Some n
  | RBad => None
  end.
(** What the parts show. *)
Definition item_glyphs (it : item) : list glyph :=
  match it with IBr => [Brk] | IPart p => map (fun c => Chr c (p_style p) (p_ids p) (p_var p)) (p_text p) end.

(** ** Proofs *)

Hypothesis sty_refl : forall a, sty_eqb a a = true.
Hypothesis sty_sym : forall a b, sty_eqb a b = sty_eqb b a.
Hypothesis sty_trans : forall a b c, sty_eqb a b = true -> sty_eqb b c = true -> sty_eqb a c = true.

Lemma ids_eqb_eq a : forall b, ids_eqb a b = true <-> a = b.
Proof.
  unfold ids_eqb. induction a as [|x a IH]; intros [|y b]; cbn [List.length combine forallb Nat.eqb fst snd]; try (split; [discriminate|discriminate]).
  - tauto.
  - specialize (IH b). rewrite andb_true_iff in *. rewrite andb_true_iff, str_eqb_eq. split.
    + intros (H1 & -> & H2). f_equal. tauto.
    + intros [= -> ->]. tauto.
Qed.
Lemma var_eqb_eq a b : var_eqb a b = true <-> a = b.
Proof.
  destruct a, b; cbn [var_eqb]; try (split; [discriminate|discriminate]); [|tauto].
  rewrite str_eqb_eq. split; [now intros ->|now intros [= ->]].
Qed.
Lemma same_spec a b : same a b = true <-> sty_eqb (p_style a) (p_style b) = true /\ p_text a = p_text b /\ p_ids a = p_ids b /\ p_var a = p_var b.
Proof. unfold same. rewrite !andb_true_iff, str_eqb_eq, ids_eqb_eq, var_eqb_eq. tauto. Qed.
Lemma same_refl a : same a a = true.
Proof. apply same_spec. repeat split. apply sty_refl. Qed.
Lemma same_eq a b q : same a b = true -> same q a = same q b.
Proof.
  intros H. apply same_spec in H as (H1 & H2 & H3 & H4). apply eq_true_iff_eq. rewrite !same_spec, H2, H3, H4.
  assert (K : sty_eqb (p_style q) (p_style a) = true <-> sty_eqb (p_style q) (p_style b) = true).
  { split; intros K; [exact (sty_trans _ _ _ K H1)|]. rewrite sty_sym in H1. exact (sty_trans _ _ _ K H1). }
  tauto.
Qed.

(** The number of parts equal to [q]. *)
Definition b2n (b : bool) : nat := if b then 1%nat else 0%nat.
Fixpoint count (q : tpart) (l : list item) : nat :=
  match l with [] => 0%nat | IBr :: r => count q r | IPart p :: r => (b2n (same q p) + count q r)%nat end.
Lemma count_app q a b : count q (a ++ b) = (count q a + count q b)%nat.
Proof. induction a as [|[|p] a IH]; cbn [app count]; [reflexivity|exact IH|]. rewrite IH. lia. Qed.
Definition all_glyphs (l : list item) : list glyph := flat_map item_glyphs l.
Lemma all_app a b : all_glyphs (a ++ b) = all_glyphs a ++ all_glyphs b.
Proof. apply flat_map_app. Qed.

Lemma remove_ok p acc : is_empty p = true -> (0 < count p acc)%nat -> exists acc', remove p acc = Ok acc' /\
  all_glyphs acc' = all_glyphs acc /\ forall q, count q acc = (count q acc' + b2n (same q p))%nat.
Proof.
  intros He. induction acc as [|[|x] r IH]; cbn [count remove]; [lia| |].
  - intros H. destruct (IH H) as (r' & -> & H1 & H2). cbn [bind]. exists (IBr :: r'). split; [reflexivity|].
    split; [unfold all_glyphs in *; cbn [flat_map]; now rewrite H1|exact H2].
  - destruct (same p x) eqn:E.
    + intros _. exists r. split; [reflexivity|]. split.
      * unfold all_glyphs. cbn [flat_map item_glyphs]. apply same_spec in E as (_ & E & _). unfold is_empty in He.
        rewrite <- E. destruct (p_text p); [reflexivity|discriminate].
      * intros q. cbn [count]. rewrite (same_eq p x q E). lia.
    + cbn [b2n Nat.add]. intros H. destruct (IH H) as (r' & -> & H1 & H2). cbn [bind]. exists (IPart x :: r'). split; [reflexivity|].
      split; [unfold all_glyphs in *; cbn [flat_map]; now rewrite H1|]. intros q. cbn [count]. rewrite H2. lia.
Qed.

(** [acc] is [acc0] with more glyphs [gs], and no empty part besides the
    current one. *)
Definition inv (acc0 : list item) (gs : list glyph) (acc : list item) (cur : tpart) : Prop :=
  all_glyphs acc = all_glyphs acc0 ++ gs /\
  forall q, is_empty q = true -> count q acc = (count q acc0 + b2n (is_empty cur && same q cur))%nat.
Lemma inv_remove acc0 gs acc cur : inv acc0 gs acc cur ->
  exists acc', (if is_empty cur then remove cur acc else Ok acc) = Ok acc' /\ all_glyphs acc' = all_glyphs acc0 ++ gs /\
    forall q, is_empty q = true -> count q acc' = count q acc0.
Proof.
  intros [H1 H2]. destruct (is_empty cur) eqn:E.
  - destruct (remove_ok cur acc E) as (acc' & Er & Hg & Hc).
    { rewrite (H2 cur E), same_refl. cbn. lia. }
    exists acc'. split; [exact Er|]. split; [congruence|]. intros q Hq. specialize (Hc q). rewrite (H2 q Hq) in Hc. cbn [andb] in Hc. lia.
  - exists acc. split; [reflexivity|]. split; [exact H1|]. intros q Hq. rewrite (H2 q Hq). cbn. lia.
Qed.
Lemma inv_new acc0 gs acc cur st ids var : inv acc0 gs acc cur -> exists pre,
  new_text_part st ids var cur acc = Ok (pre ++ [IPart (mkPart st [] ids var)], mkPart st [] ids var) /\
  inv acc0 gs (pre ++ [IPart (mkPart st [] ids var)]) (mkPart st [] ids var).
Proof.
  intros H. destruct (inv_remove _ _ _ _ H) as (acc1 & E & Hg & Hc). exists acc1. unfold new_text_part. rewrite E. cbn [bind].
  split; [reflexivity|]. split.
  - rewrite all_app. cbn. rewrite app_nil_r. exact Hg.
  - intros q Hq. rewrite count_app. cbn [count]. rewrite (Hc q Hq). cbn [is_empty p_text andb]. lia.
Qed.
Lemma inv_text acc0 gs pre cur s : inv acc0 gs (pre ++ [IPart cur]) cur ->
  exists cur', add_text s (pre ++ [IPart cur]) cur = (pre ++ [IPart cur'], cur') /\
    cur' = mkPart (p_style cur) (p_text cur ++ s) (p_ids cur) (p_var cur) /\
    inv acc0 (gs ++ map (fun c => Chr c (p_style cur) (p_ids cur) (p_var cur)) s) (pre ++ [IPart cur']) cur'.
Proof.
  intros [H1 H2]. unfold add_text. rewrite removelast_last. eexists. split; [reflexivity|]. split; [reflexivity|]. split.
  - rewrite all_app in *. cbn [all_glyphs flat_map item_glyphs p_style p_text p_ids p_var app] in *. rewrite app_nil_r in *.
    rewrite map_app, !app_assoc. now rewrite H1.
  - intros q Hq. specialize (H2 q Hq). rewrite count_app in *. cbn [count] in *.
    assert (K : forall p, (b2n (same q p) + 0)%nat = b2n (is_empty p && same q p)).
    { intros p. destruct (same q p) eqn:E; [|now rewrite andb_false_r]. apply same_spec in E as (_ & E & _).
      unfold is_empty in *. rewrite <- E, Hq. reflexivity. }
    rewrite K in *. lia.
Qed.

(** Adding a text at the end of the current part. *)
Definition plain (c : N) : bool := negb (c =? 10).
Lemma text_plain st ids var s : forallb plain s = true -> text_glyphs st ids var s = map (fun c => Chr c st ids var) s.
Proof.
  unfold text_glyphs. intros H. rewrite forallb_forall in H. apply map_ext_in. intros c Hc. specialize (H c Hc). unfold plain in H.
  destruct (c =? 10); [discriminate|reflexivity].
Qed.
Lemma lines_plain s : Forall (fun t => forallb plain t = true) (split_on 10 s).
Proof.
  pose proof (split_by_free (N.eqb 10) s) as H. unfold split_on. revert H. apply Forall_impl. intros t H. rewrite forallb_forall in *.
  intros c Hc. specialize (H c Hc). unfold plain. now rewrite N.eqb_sym.
Qed.
Lemma join_glyphs st ids var l0 ls : Forall (fun t => forallb plain t = true) (l0 :: ls) ->
  text_glyphs st ids var (join 10 (l0 :: ls)) =
  map (fun c => Chr c st ids var) l0 ++ flat_map (fun t => Brk :: map (fun c => Chr c st ids var) t) ls.
Proof.
  revert l0. induction ls as [|l1 ls IH]; intros l0 H; apply Forall_cons_iff in H as [H0 H].
  - cbn [join flat_map]. rewrite app_nil_r. now apply text_plain.
  - change (join 10 (l0 :: l1 :: ls)) with (l0 ++ 10 :: join 10 (l1 :: ls)). unfold text_glyphs. rewrite map_app. cbn [map].
    change (10 =? 10) with true. cbv iota. fold (text_glyphs st ids var l0). fold (text_glyphs st ids var (join 10 (l1 :: ls))).
    rewrite (IH l1 H), (text_plain _ _ _ l0 H0). cbn [flat_map app]. reflexivity.
Qed.
Lemma inv_lines st ids var acc0 : forall ls gs pre cur, inv acc0 gs (pre ++ [IPart cur]) cur ->
  exists pre' cur', add_lines st ids var ls (pre ++ [IPart cur]) cur = Ok (pre' ++ [IPart cur'], cur') /\
    (ls <> [] \/ (p_style cur = st /\ p_ids cur = ids /\ p_var cur = var) -> p_style cur' = st /\ p_ids cur' = ids /\ p_var cur' = var) /\
    inv acc0 (gs ++ flat_map (fun t => Brk :: map (fun c => Chr c st ids var) t) ls) (pre' ++ [IPart cur']) cur'.
Proof.
  induction ls as [|s ls IH]; intros gs pre cur H; cbn [add_lines flat_map].
  - exists pre, cur. split; [reflexivity|]. split; [intros [K|K]; [congruence|exact K]|]. rewrite app_nil_r. exact H.
  - assert (Hbr : inv acc0 (gs ++ [Brk]) ((pre ++ [IPart cur]) ++ [IBr]) cur).
    { destruct H as [H1 H2]. split.
      - rewrite all_app, H1. cbn. now rewrite app_assoc.
      - intros q Hq. rewrite count_app, (H2 q Hq). cbn. lia. }
    destruct (inv_new _ _ _ _ st ids var Hbr) as (pre1 & -> & H1). cbn [bind].
    destruct (inv_text _ _ _ _ s H1) as (cur2 & -> & -> & H2). cbn [p_style p_text p_ids p_var app] in *.
    destruct (IH _ _ _ H2) as (pre' & cur' & -> & K & H3). exists pre', cur'. split; [reflexivity|].
    split; [intros _; apply K; right; cbn; auto|]. rewrite <- !app_assoc in H3. exact H3.
Qed.

(** The loop of a part: after some of its elements. *)
Definition of_frame (st : sdict) (ids : list str) (var : option str) (cur : tpart) : Prop :=
  p_style cur = st /\ p_ids cur = ids /\ p_var cur = var.
Definition loop_inv st ids var (acc0 : list item) (gs : list glyph) (acc : list item) (cur : tpart) (last : bool) : Prop :=
  inv acc0 gs acc cur /\ of_frame st ids var cur /\ (last = true -> exists pre, acc = pre ++ [IPart cur]).
Definition add_string (st : sdict) (ids1 : list str) (var : option str) (s : str) (acc : list item) (cur : tpart) (last_string : bool) :=
  match s with
  | [] => Ok (acc, cur, last_string)
  | _ =>
      do (acc1, cur1) <- (if last_string then Ok (acc, cur) else new_text_part st ids1 var cur acc);
      match split_on 10 s with
      | [] => Err IndexError
      | l0 :: ls =>
          let '(acc2, cur2) := add_text l0 acc1 cur1 in
          do (acc3, cur3) <- add_lines st ids1 var ls acc2 cur2;
          Ok (acc3, cur3, true)
      end
  end.
Lemma inv_string st ids var acc0 gs acc cur last s : loop_inv st ids var acc0 gs acc cur last ->
  exists acc' cur' last', add_string st ids var s acc cur last = Ok (acc', cur', last') /\
    loop_inv st ids var acc0 (gs ++ text_glyphs st ids var s) acc' cur' last'.
Proof.
  intros (H & Hf & Hl). destruct s as [|c s].
  { exists acc, cur, last. split; [reflexivity|]. cbn. rewrite app_nil_r. repeat split; try apply H; try apply Hf; exact Hl. }
  cbn [add_string].
  assert (H1 : exists pre cur1, (if last then Ok (acc, cur) else new_text_part st ids var cur acc) = Ok (pre ++ [IPart cur1], cur1) /\
    inv acc0 gs (pre ++ [IPart cur1]) cur1 /\ of_frame st ids var cur1).
  { destruct last.
    - destruct (Hl eq_refl) as (pre & ->). exists pre, cur. auto.
    - destruct (inv_new _ _ _ _ st ids var H) as (pre & E & H1). exists pre, (mkPart st [] ids var). repeat split; assumption || apply H1 || reflexivity. }
  destruct H1 as (pre & cur1 & -> & H1 & F1 & F2 & F3). cbn [bind].
  pose proof (lines_plain (c :: s)) as Hp. pose proof (split_join_inv 10 (c :: s)) as Hj.
  destruct (split_on 10 (c :: s)) as [|l0 ls]; [discriminate|].
  destruct (inv_text _ _ _ _ l0 H1) as (cur2 & -> & -> & H2).
  destruct (inv_lines st ids var acc0 ls _ _ _ H2) as (pre' & cur' & -> & K & H3). cbn [bind].
  eexists _, _, _. split; [reflexivity|]. split; [|split; [apply K; right; cbn; auto|intros _; eauto]].
  rewrite <- Hj, join_glyphs by exact Hp. rewrite F1, F2, F3 in H3. rewrite app_assoc. exact H3.
Qed.
Lemma inv_finish st ids var acc0 gs acc cur last : loop_inv st ids var acc0 gs acc cur last ->
  exists acc', (if is_empty cur then remove cur acc else Ok acc) = Ok acc' /\
    all_glyphs acc' = all_glyphs acc0 ++ gs /\ forall q, is_empty q = true -> count q acc' = count q acc0.
Proof. intros (H & _). now apply inv_remove. Qed.

(** Induction over nested parts. *)
Fixpoint node_size (n : node) : nat :=
  match n with
  | Node _ v _ =>
      match v with
      | DSeq l => S ((fix go (l : list elem) : nat := match l with [] => 0%nat | ENode m :: r => (node_size m + go r)%nat | _ :: r => go r end) l)
      | _ => 1%nat
      end
  end.
Definition agrees (acc0 : list item) (r : res (list item)) (g : res (list glyph)) : Prop :=
  match r, g with
  | Ok acc, Ok gs => all_glyphs acc = all_glyphs acc0 ++ gs /\ forall q, is_empty q = true -> count q acc = count q acc0
  | Err e, Err e' => e = e'
  | _, _ => False
  end.
Definition seq_loop st ids1 var :=
  fix loop (l : list elem) (acc : list item) (cur : tpart) (last : bool) {struct l} : res (list item) :=
    match l with
    | [] => if is_empty cur then remove cur acc else Ok acc
    | EText s :: r => do (acc1, cur1, last1) <- add_string st ids1 var s acc cur last; loop r acc1 cur1 last1
    | ENode m :: r => do acc1 <- parse_node m st (p_ids cur) acc; loop r acc1 cur false
    | EBad :: r => Err TypeError
    end.
Definition seq_glyphs st ids1 :=
  fix all (l : list elem) : res (list glyph) :=
    match l with
    | [] => Ok []
    | EText s :: r => do a <- all r; Ok (text_glyphs st ids1 None s ++ a)
    | ENode m :: r => do g <- glyphs m st ids1; do a <- all r; Ok (g ++ a)
    | EBad :: r => Err TypeError
    end.
Definition seq_size := fix go (l : list elem) : nat := match l with [] => 0%nat | ENode m :: r => (node_size m + go r)%nat | _ :: r => go r end.
Lemma parse_node_eq key value i style ids acc : parse_node (Node key value i) style ids acc =
  do attrs <- parse_style_str family key;
  do l <- elements_of value;
  do extra <- process_style (i_style i);
  let st := dupdate (dupdate style attrs) extra in
  let ids1 := ids ++ own_ids i (shown_elements i l) in
  let p := mkPart st [] ids1 (i_var i) in
  seq_loop st ids1 (i_var i) (shown_elements i l) (acc ++ [IPart p]) p false.
Proof.
  cbn [parse_node]. destruct (parse_style_str family key) as [attrs|e]; [|reflexivity]. cbn [bind].
  destruct value as [s|l|]; cbn [elements_of bind]; [| |reflexivity].
  - destruct (process_style (i_style i)) as [extra|e]; [|reflexivity]. cbn [bind]. unfold shown_elements.
    destruct (i_var i); reflexivity.
  - destruct (process_style (i_style i)) as [extra|e]; [|reflexivity]. cbn [bind]. unfold shown_elements.
    destruct (i_var i); reflexivity.
Qed.
Lemma ids_ok i l : own_ids i l = spec_ids i (elements_text l).
Proof. unfold own_ids, spec_ids, mark. destruct (i_outline i) as [[t n]|], (i_label i); reflexivity. Qed.
Lemma style_ok s : process_style s = own_style s.
Proof. unfold process_style, own_style. destruct s, formats; reflexivity. Qed.
Lemma glyphs_eq key value i style ids : glyphs (Node key value i) style ids =
  do attrs <- parse_style_str family key;
  do l <- elements_of value;
  do extra <- process_style (i_style i);
  let st := dupdate (dupdate style attrs) extra in
  let ids1 := ids ++ own_ids i (shown_elements i l) in
  match i_var i with
  | Some _ => Ok (text_glyphs st ids1 (i_var i) (lit "0"))
  | None => seq_glyphs st ids1 l
  end.
Proof.
  rewrite style_ok. cbn [glyphs]. destruct (parse_style_str family key) as [attrs|e]; [|reflexivity]. cbn [bind].
  destruct value as [s|l|]; cbn [elements_of bind]; [| |reflexivity].
  - destruct (own_style (i_style i)) as [extra|e]; [|reflexivity]. cbn [bind]. rewrite ids_ok. unfold shown_elements. destruct (i_var i); [reflexivity|].
    cbn [seq_glyphs bind]. now rewrite app_nil_r.
  - destruct (own_style (i_style i)) as [extra|e]; [|reflexivity]. cbn [bind]. rewrite ids_ok. unfold shown_elements. destruct (i_var i); reflexivity.
Qed.
Lemma loop_ok st ids1 acc0 : forall l,
  (forall m, In (ENode m) l -> forall style ids acc, agrees acc (parse_node m style ids acc) (glyphs m style ids)) ->
  forall gs acc cur last, loop_inv st ids1 None acc0 gs acc cur last ->
  agrees acc0 (seq_loop st ids1 None l acc cur last) (do a <- seq_glyphs st ids1 l; Ok (gs ++ a)).
Proof.
  induction l as [|e l IH]; intros HI gs acc cur last H.
  - cbn [seq_loop seq_glyphs bind]. destruct (inv_finish _ _ _ _ _ _ _ _ H) as (acc' & -> & H1 & H2). rewrite app_nil_r. split; assumption.
  - assert (HI' : forall m, In (ENode m) l -> forall style ids acc, agrees acc (parse_node m style ids acc) (glyphs m style ids)).
    { intros m Hm. apply HI. now right. }
    specialize (IH HI'). destruct e as [s|m|].
    + destruct (inv_string _ _ _ _ _ _ _ _ s H) as (acc' & cur' & last' & E & H'). specialize (IH _ _ _ _ H').
      change (seq_loop st ids1 None (EText s :: l) acc cur last) with
        (do (acc1, cur1, last1) <- add_string st ids1 None s acc cur last; seq_loop st ids1 None l acc1 cur1 last1).
      rewrite E. cbn [bind]. change (seq_glyphs st ids1 (EText s :: l)) with (do a <- seq_glyphs st ids1 l; Ok (text_glyphs st ids1 None s ++ a)).
      destruct (seq_glyphs st ids1 l) as [a|e]; cbn [bind] in *; [|exact IH]. rewrite app_assoc. exact IH.
    + specialize (HI m (or_introl eq_refl) st (p_ids cur) acc).
      change (seq_loop st ids1 None (ENode m :: l) acc cur last) with
        (do acc1 <- parse_node m st (p_ids cur) acc; seq_loop st ids1 None l acc1 cur false).
      change (seq_glyphs st ids1 (ENode m :: l)) with (do g <- glyphs m st ids1; do a <- seq_glyphs st ids1 l; Ok (g ++ a)).
      destruct H as ((H1 & H2) & (F1 & F2 & F3) & _). rewrite F2 in HI |- *.
      destruct (parse_node m st ids1 acc) as [acc1|e1], (glyphs m st ids1) as [g|e2]; cbn [agrees] in HI; try contradiction; cbn [bind]; [|exact HI].
      destruct HI as [G1 G2].
      assert (H' : loop_inv st ids1 None acc0 (gs ++ g) acc1 cur false).
      { split; [|split; [repeat split; assumption|discriminate]]. split; [rewrite G1, H1; now rewrite app_assoc|].
        intros q Hq. rewrite (G2 q Hq). now apply H2. }
      specialize (IH _ _ _ _ H'). destruct (seq_glyphs st ids1 l) as [a|e]; cbn [bind] in *; [|exact IH]. rewrite app_assoc. exact IH.
    + reflexivity.
Qed.
Lemma in_size m l : In (ENode m) l -> (node_size m <= seq_size l)%nat.
Proof.
  induction l as [|e l IH]; [intros []|]. intros [->|H]; cbn [seq_size]; [lia|]. specialize (IH H). destruct e; lia.
Qed.
Theorem node_ok : forall k n, (node_size n <= k)%nat -> forall style ids acc, agrees acc (parse_node n style ids acc) (glyphs n style ids).
Proof.
  induction k as [|k IH]; intros [key value i] Hk style ids acc.
  - exfalso. destruct value; cbn in Hk; lia.
  - rewrite parse_node_eq, glyphs_eq. destruct (parse_style_str family key) as [attrs|e]; [|reflexivity]. cbn [bind].
    destruct (elements_of value) as [l|e] eqn:El; [|reflexivity]. cbn [bind].
    destruct (process_style (i_style i)) as [extra|e]; [|reflexivity]. cbn [bind]. cbv zeta.
    set (st := dupdate (dupdate style attrs) extra). set (ids1 := ids ++ own_ids i (shown_elements i l)).
    assert (H0 : loop_inv st ids1 (i_var i) acc [] (acc ++ [IPart (mkPart st [] ids1 (i_var i))]) (mkPart st [] ids1 (i_var i)) false).
    { split; [|split; [repeat split|discriminate]]. split; [rewrite all_app; reflexivity|].
      intros q Hq. rewrite count_app. cbn [count is_empty p_text andb]. lia. }
    unfold shown_elements. clearbody st ids1. destruct (i_var i) as [v|] eqn:Ev.
    + destruct (inv_string _ _ _ _ _ _ _ _ (lit "0") H0) as (acc' & cur' & last' & E & H').
      destruct (inv_finish _ _ _ _ _ _ _ _ H') as (acc2 & E2 & H1 & H2).
      change (seq_loop st ids1 (Some v) [EText (lit "0")] (acc ++ [IPart (mkPart st [] ids1 (Some v))]) (mkPart st [] ids1 (Some v)) false) with
        (do (acc1, cur1, last1) <- add_string st ids1 (Some v) (lit "0") (acc ++ [IPart (mkPart st [] ids1 (Some v))]) (mkPart st [] ids1 (Some v)) false;
         if is_empty cur1 then remove cur1 acc1 else Ok acc1).
      rewrite E. cbn [bind]. rewrite E2. split; assumption.
    + pose proof (loop_ok st ids1 acc l) as HL.
      assert (HI : forall m, In (ENode m) l -> forall style ids acc, agrees acc (parse_node m style ids acc) (glyphs m style ids)).
      { intros m Hm. apply IH. destruct value as [s|l'|]; cbn [elements_of] in El; [| |discriminate].
        - injection El as <-. destruct Hm as [K|[]]; discriminate.
        - injection El as ->. apply in_size in Hm. change (node_size (Node key (DSeq l) i)) with (S (seq_size l)) in Hk. lia. }
      specialize (HL HI _ _ _ _ H0). destruct (seq_glyphs st ids1 l); exact HL.
Qed.

Lemma no_empty acc : (forall q, is_empty q = true -> count q acc = 0%nat) -> forall p, In (IPart p) acc -> p_text p <> [].
Proof.
  intros H p Hp Ht. assert (Hq : is_empty p = true) by (unfold is_empty; now rewrite Ht). specialize (H p Hq).
  clear Hq Ht. induction acc as [|[|x] r IH]; [destruct Hp| |]; cbn [count] in H.
  - destruct Hp as [K|Hp]; [discriminate|]. now apply IH.
  - destruct Hp as [[= ->]|Hp]; [rewrite same_refl in H; discriminate|]. apply IH; [lia|exact Hp].
Qed.
Theorem content_ok defaults r n : root_node r = Some n ->
  match parse_content defaults r, glyphs n defaults [] with
  | Ok items, Ok gs => flat_map item_glyphs items = gs /\ forall p, In (IPart p) items -> p_text p <> []
  | Err e, Err e' => e = e'
  | _, _ => False
  end.
Proof.
  intros Hr. assert (E : parse_content defaults r = parse_node n defaults [] []) by (destruct r; cbn [root_node] in Hr; try discriminate Hr; injection Hr as <-; reflexivity).
  rewrite E. pose proof (node_ok (node_size n) n (le_n _) defaults [] []) as H. unfold agrees in H.
  destruct (parse_node n defaults [] []), (glyphs n defaults []); try exact H. destruct H as [H1 H2]. split; [exact H1|].
  apply no_empty. intros q Hq. rewrite (H2 q Hq). reflexivity.
Qed.
End Rich.
