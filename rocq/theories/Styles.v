(** Model of the styles of the elements of a document: pdfme/utils.py 32-52
    ([process_style]), pdfme/content.py 345-348, 1075-1084 and 1086-1113,
    pdfme/table.py 193-196, 251-259 and 674-717, pdfme/pdf.py 459-513, 555-577
    and 703-739, 805-822.

    A style is a dict without its order: a function from keys to values.  The
    values are of any type; [none] and [five] are None and 5.  Style strings are
    parsed by a function (StyleStr.v has a model of it). *)
From Coq Require Import String ZArith Lia.
From Verif Require Import Py PyStr Parser StreamProofs.
Open Scope list_scope.
Open Scope nat_scope.

(** ** Model *)
Section Styles.
Context {V : Type}.
Variables none five : V.
Definition sdict := str -> option V.
Definition empty : sdict := fun _ => None.
(** [a.update(b)] *)
Definition update (a b : sdict) : sdict := fun k => match b k with Some v => Some v | None => a k end.
(** [a.pop(key, None)] *)
Definition remove (key : str) (a : sdict) : sdict := fun k => if str_eqb k key then None else a k.
Definition single (key : str) (v : V) : sdict := fun k => if str_eqb k key then Some v else None.

(** A style as it is given: nothing, a name, a dict, or something else. *)
Inductive sty := SNone | SName (n : str) | SDict (d : sdict) | SOther.
Variable formats : str -> option sdict.
Variable parse_str : str -> res sdict.
(** utils.py 32-52 [process_style]; the document is always given. *)
Definition process_style (s : sty) : res sdict :=
  match s with
  | SNone => Ok empty
  | SName n => match formats n with Some d => Ok d | None => Err KeyError end
  | SDict d => Ok d
  | SOther => Err PyException
  end.

(** The elements, with what their styles say: [EPar] has the style string of its
    first key with a dot (without the dot). *)
Inductive elem :=
| EPar (s : str) (st : sty)
| EImg (st : sty)
| ETable (st : sty) (rows : list (list elem))
| EBox (st : sty) (ch : list elem)
| EGroup (st : sty) (ch : list elem).
Definition style_of (e : elem) : sty := match e with EPar _ s | EImg s | ETable s _ | EBox s _ | EGroup s _ => s end.
(** content.py 1075-1084 [get_element_styles], table.py 699-703. *)
Definition element_style (inherited : sdict) (e : elem) : res sdict :=
  do st1 <- (match e with EPar s _ => do d <- parse_str s; Ok (update inherited d) | _ => Ok inherited end);
  do own <- process_style (style_of e);
  Ok (update st1 own).

(** table.py 704-712: the style of a cell, and what is left for its content. *)
Definition sides : list str := [lit "top"; lit "right"; lit "bottom"; lit "left"].
Definition cell_key (side : str) : str := lit "cell_margin_" ++ side.
Definition cell_style (st : sdict) : sdict := fun k =>
  if existsb (fun side => str_eqb k (cell_key side)) sides
  then match st k with Some v => Some v | None => Some (match st (lit "cell_margin") with Some v => v | None => none end) end
  else if str_eqb k (lit "cell_fill") then Some (match st k with Some v => v | None => none end)
  else None.
Definition content_style (st : sdict) : sdict :=
  remove (lit "cell_fill") (remove (lit "cell_margin") (fold_left (fun d side => remove (cell_key side) d) sides st)).
(** table.py 193-195 and 251-259: the style of a table for its cells. *)
Definition table_style (st : sdict) : sdict :=
  remove (lit "border_style") (remove (lit "border_color") (remove (lit "border_width")
    (update (update (single (lit "cell_margin") five) (single (lit "cell_fill") none)) st))).

(** What styles are used for: a paragraph or image, or a cell. *)
Inductive used := ULeaf (st : sdict) | UCell (st : sdict).
Definition concatM {A B} (f : A -> res (list B)) : list A -> res (list B) :=
  fix go l := match l with [] => Ok [] | a :: r => do x <- f a; do y <- go r; Ok (x ++ y) end.
Inductive place := InBox | InGroup | InCell.
(** content.py 796-825 [process], 1086-1113 [process_group_element] and 345-348;
    table.py 752-828 [add_cell] and 830-1000.  A group in a cell shows nothing,
    other elements than paragraphs, images and tables in a group raise.  The keys
    shrink and min_height, which are set for the elements of a group, are not
    here. *)
Fixpoint styles (p : place) (inherited : sdict) (e : elem) : res (list used) :=
  do st0 <- element_style inherited e;
  let st := match p with InCell => content_style st0 | _ => st0 end in
  do inside <- (match e with
    | EPar _ _ | EImg _ => Ok [ULeaf st]
    | ETable _ rows => concatM (concatM (styles InCell (table_style st))) rows
    | EBox _ ch =>
        match p with
        | InGroup => Err PyException
        | InBox => do own <- process_style (style_of e); concatM (styles InBox (update (update (single (lit "margin_bottom") five) st) own)) ch
        | InCell => concatM (styles InBox (update (single (lit "margin_bottom") five) st)) ch
        end
    | EGroup _ ch =>
        match p with
        | InGroup => Err PyException
        | InCell => Ok []
        | InBox => concatM (styles InGroup st) ch
        end
    end);
  Ok (match p with InCell => UCell (cell_style st0) :: inside | _ => inside end).

(** pdf.py 703-717 [_default_content_style]. *)
Record defaults := mkDefaults { df_f : V; df_s : V; df_c : V; df_align : V; df_lh : V; df_indent : V }.
Definition default_style (d : defaults) : sdict := fun k =>
  if str_eqb k (lit "f") then Some (df_f d) else if str_eqb k (lit "s") then Some (df_s d) else if str_eqb k (lit "c") then Some (df_c d)
  else if str_eqb k (lit "text_align") then Some (df_align d) else if str_eqb k (lit "line_height") then Some (df_lh d)
  else if str_eqb k (lit "indent") then Some (df_indent d) else None.
(** pdf.py 719-739 [_create_table], 805-822 [_create_content]: the root. *)
Definition document_styles (d : defaults) (e : elem) : res (list used) := styles InBox (default_style d) e.

(** pdf.py 679-701 [text], 645-677 [_text], 555-577 [_create_text] and 459-488
    [_default_paragraph_style]: the line height and indent of a paragraph are
    those of the arguments, which are 1.1 and 0 when they are not given. *)
Record text_args := mkArgs { ta_align : option V; ta_lh : option (option V); ta_indent : option (option V) }.
Definition paragraph_style (d : defaults) (lh_default indent_default : V) (a : text_args) : V * V * V :=
  let lh := match ta_lh a with Some x => x | None => Some lh_default end in
  let indent := match ta_indent a with Some x => x | None => Some indent_default end in
  (match ta_align a with Some v => v | None => df_align d end, match lh with Some v => v | None => df_lh d end,
   match indent with Some v => v | None => df_indent d end).

(** content.py 853: the style of a paragraph dict is replaced by the merged one.
    A dict that is used in several places: its own style when each place is
    reached. *)
Fixpoint shared_styles (own : sdict) (parents : list sdict) : list sdict :=
  match parents with
  | [] => []
  | inherited :: r => let st := update inherited own in st :: shared_styles st r
  end.

(** ** Specification *)
(** The elements from the root to the place where a style is used, the root
    first. *)
Definition way : Type := list elem.
(** What a style as it is given says about a key. *)
Definition written (st : sty) (k : str) : option V :=
  match st with SDict d => d k | SName n => match formats n with Some d => d k | None => None end | SNone | SOther => None end.
(** What an element says about a key: its style, or else its style string. *)
Definition says (e : elem) (k : str) : option V :=
  match written (style_of e) k with
  | Some v => Some v
  | None => match e with EPar s _ => match parse_str s with Ok d' => d' k | Err _ => None end | _ => None end
  end.
(** The ways to what uses a style, in order: to paragraphs and images, and to
    cells.  A cell has also the end of its way that matters for its margins and
    fill: from after the cell that has its table, if there is one ([inner]). *)
Inductive target := TLeaf (w : way) | TCell (w : way) (inner : bool).
Definition is_cell (p : place) : bool := match p with InCell => true | _ => false end.
Definition under (p : place) (e : elem) (t : target) : target :=
  match t with
  | TLeaf w => TLeaf (e :: w)
  | TCell w inner => TCell (if inner || is_cell p then w else e :: w) (inner || is_cell p)
  end.
Fixpoint targets (p : place) (e : elem) : list target :=
  (if is_cell p then [TCell [e] false] else []) ++
  match e with
  | EPar _ _ | EImg _ => [TLeaf [e]]
  | ETable _ rows => map (under p e) (flat_map (flat_map (targets InCell)) rows)
  | EBox _ ch => map (under p e) (flat_map (targets InBox) ch)
  | EGroup _ ch => if is_cell p then [] else map (under p e) (flat_map (targets InGroup) ch)
  end.
(** The last element of a way that says something about a key. *)
Definition nearest (w : way) (k : str) (v : V) : Prop :=
  exists a e b, w = a ++ e :: b /\ says e k = Some v /\ forall e', In e' b -> says e' k = None.
Definition silent (w : way) (k : str) : Prop := forall e, In e w -> says e k = None.
(** The keys of cells and borders, which are not inherited by what is in a cell,
    the margin that boxes have when nothing is said, and the keys that are set
    for the images of groups. *)
Definition margins : list str := [lit "cell_margin_top"; lit "cell_margin_right"; lit "cell_margin_bottom"; lit "cell_margin_left"].
Definition cell_keys : list str := [lit "cell_margin"; lit "cell_fill"] ++ margins.
Definition border_keys : list str := [lit "border_width"; lit "border_color"; lit "border_style"].
Definition plain (k : str) : Prop :=
  ~ In k cell_keys /\ ~ In k border_keys /\ ~ In k [lit "margin_bottom"; lit "shrink"; lit "min_height"].
(** A style that is used is the one that the elements on the way say. *)
Definition as_said (base : sdict) (u : used) (t : target) : Prop :=
  match u, t with
  | ULeaf st, TLeaf w => forall k, plain k -> (forall v, nearest w k v -> st k = Some v) /\ (silent w k -> st k = base k)
  | UCell st, TCell w _ =>
      (forall k, In k margins ->
         (forall v, nearest w k v -> st k = Some v) /\
         (silent w k ->
            (forall v, nearest w (lit "cell_margin") v -> st k = Some v) /\
            (silent w (lit "cell_margin") -> st k = Some five))) /\
      (forall v, nearest w (lit "cell_fill") v -> st (lit "cell_fill") = Some v) /\
      (silent w (lit "cell_fill") -> st (lit "cell_fill") = Some none)
  | _, _ => False
  end.

(** A document whose styles can be used: the names of styles are known, the style
    strings are right, and groups are in boxes and have paragraphs, images and
    tables only. *)
Definition All {A} (P : A -> Prop) : list A -> Prop := fix all l := match l with [] => True | a :: r => P a /\ all r end.
Definition known (st : sty) : Prop := match st with SName n => formats n <> None | SOther => False | _ => True end.
Fixpoint fine (p : place) (e : elem) : Prop :=
  known (style_of e) /\
  match e with
  | EPar s _ => exists d, parse_str s = Ok d
  | EImg _ => True
  | ETable _ rows => All (All (fine InCell)) rows
  | EBox _ ch => p <> InGroup /\ All (fine InBox) ch
  | EGroup _ ch => p = InBox /\ All (fine InGroup) ch
  end.

(** ** Proofs *)
Fixpoint elem_rec' (P : elem -> Prop) (Hp : forall s st, P (EPar s st)) (Hi : forall st, P (EImg st))
    (Ht : forall st rows, Forall (Forall P) rows -> P (ETable st rows)) (Hb : forall st ch, Forall P ch -> P (EBox st ch))
    (Hg : forall st ch, Forall P ch -> P (EGroup st ch)) (e : elem) {struct e} : P e :=
  let all := fix all (l : list elem) : Forall P l :=
    match l with [] => Forall_nil P | a :: r => Forall_cons a (elem_rec' P Hp Hi Ht Hb Hg a) (all r) end in
  match e with
  | EPar s st => Hp s st
  | EImg st => Hi st
  | ETable st rows => Ht st rows ((fix every (l : list (list elem)) : Forall (Forall P) l :=
      match l with [] => Forall_nil (Forall P) | a :: r => Forall_cons a (all a) (every r) end) rows)
  | EBox st ch => Hb st ch (all ch)
  | EGroup st ch => Hg st ch (all ch)
  end.

(** What the elements of a way say, over [base]. *)
Definition look (w : way) (k : str) (base : option V) : option V :=
  fold_left (fun acc e => match says e k with Some v => Some v | None => acc end) w base.
Lemma look_silent w k base : silent w k -> look w k base = base.
Proof.
  revert base; induction w as [|e w IH]; intros base H; [reflexivity|]. cbn [look fold_left].
  rewrite (H e (or_introl eq_refl)). apply IH. intros e' Hi. apply H. right. exact Hi.
Qed.
Lemma look_nearest w k base v : nearest w k v -> look w k base = Some v.
Proof.
  intros (a & e & b & -> & E & H). unfold look. rewrite fold_left_app. cbn [fold_left]. rewrite E.
  apply (look_silent b k (Some v)). exact H.
Qed.
Lemma look_or w k base : look w k base = match look w k None with Some v => Some v | None => base end.
Proof.
  revert base; induction w as [|e w IH]; intros base; [reflexivity|]. cbn [look fold_left].
  destruct (says e k) as [v|].
  - change (look w k (Some v) = match look w k (Some v) with Some v0 => Some v0 | None => base end). rewrite (IH (Some v)).
    destruct (look w k None); reflexivity.
  - apply IH.
Qed.

Lemma process_written st d : process_style st = Ok d -> forall k, written st k = d k.
Proof.
  destruct st as [|n|d0|]; cbn [process_style written]; intros H k; try discriminate.
  - injection H as <-. reflexivity.
  - destruct (formats n); [now injection H as <-|discriminate].
  - now injection H as <-.
Qed.
Lemma element_says inh e st : element_style inh e = Ok st -> forall k, st k = match says e k with Some v => Some v | None => inh k end.
Proof.
  unfold element_style, says. intros H k. destruct e; cbn [style_of] in *; [destruct (parse_str s) as [d|]; cbn [bind] in H; [|discriminate]|cbn [bind] in H ..];
    (destruct (process_style st0) as [o|] eqn:Eo; cbn [bind] in H; [|discriminate]; injection H as <-; rewrite (process_written _ _ Eo); unfold update; destruct (o k); reflexivity).
Qed.
Lemma remove_other key (d : sdict) k : k <> key -> remove key d k = d k.
Proof. intros H. unfold remove. rewrite (proj2 (str_eqb_neq k key) H). reflexivity. Qed.
Lemma single_other key (v : V) k : k <> key -> single key v k = None.
Proof. intros H. unfold single. rewrite (proj2 (str_eqb_neq k key) H). reflexivity. Qed.
Lemma content_plain st k : ~ In k cell_keys -> content_style st k = st k.
Proof.
  intros H. unfold content_style, sides. cbn [fold_left]. unfold cell_keys in H. change margins with (map cell_key sides) in H. unfold sides in H. cbn [map app In] in H.
  rewrite !remove_other; try reflexivity; intros ->; apply H; auto 8.
Qed.
Lemma table_plain st k : ~ In k cell_keys -> ~ In k border_keys -> table_style st k = st k.
Proof.
  intros H H2. unfold table_style. unfold cell_keys in H. unfold border_keys in H2. cbn [map app In] in H, H2.
  rewrite !remove_other; [|intros ->; apply H2; auto 8 ..]. unfold update. destruct (st k); [reflexivity|].
  rewrite !single_other; [reflexivity|intros ->; apply H; auto 8 ..].
Qed.

Definition orv (o : option V) (d : V) : V := match o with Some v => v | None => d end.
Definition over (e : elem) (inh : sdict) (k : str) : option V := match says e k with Some v => Some v | None => inh k end.
Definition ck := lit "cell_margin". Definition cf := lit "cell_fill".
Definition start (inner : bool) (inh : sdict) (k : str) : option V := if inner then None else inh k.
Definition rel (inh : sdict) (u : used) (t : target) : Prop :=
  match u, t with
  | ULeaf st, TLeaf w => forall k, plain k -> st k = look w k (inh k)
  | UCell st, TCell w inner =>
      (forall side, In side sides ->
         st (cell_key side) = Some (match look w (cell_key side) (start inner inh (cell_key side)) with
                                    | Some v => v | None => orv (look w ck (start inner inh ck)) five end)) /\
      st cf = Some (orv (look w cf (start inner inh cf)) none)
  | _, _ => False
  end.
Definition pass (p : place) (inh : sdict) (e : elem) (st : sdict) : Prop :=
  (forall k, plain k -> st k = over e inh k) /\
  (forall side, In side sides -> st (cell_key side) = if is_cell p then None else over e inh (cell_key side)) /\
  orv (st ck) five = orv (if is_cell p then None else over e inh ck) five /\
  orv (st cf) none = orv (if is_cell p then None else over e inh cf) none.
Lemma look_orv w k x y d : orv x d = orv y d -> orv (look w k x) d = orv (look w k y) d.
Proof. intros H. rewrite (look_or w k x), (look_or w k y). destruct (look w k None); [reflexivity|exact H]. Qed.
Lemma under_rel p inh e st u t : pass p inh e st -> rel st u t -> rel inh u (under p e t).
Proof.
  intros (P1 & P2 & P3 & P4). destruct u as [s|s], t as [w|w inner]; cbn [rel under]; try tauto.
  - intros H k Hk. rewrite (H k Hk), (P1 k Hk). reflexivity.
  - intros [H1 H2]. destruct inner; cbn [orb start] in *.
    + split; assumption.
    + destruct (is_cell p) eqn:Ep; cbn [start].
      * split.
        -- intros side Hs. rewrite (H1 side Hs), (P2 side Hs). destruct (look w (cell_key side) None); [reflexivity|].
           f_equal. apply look_orv. exact P3.
        -- rewrite H2. f_equal. apply look_orv. exact P4.
      * split.
        -- intros side Hs. rewrite (H1 side Hs), (P2 side Hs).
           change (look (e :: w) (cell_key side) (inh (cell_key side))) with (look w (cell_key side) (over e inh (cell_key side))).
           destruct (look w (cell_key side) (over e inh (cell_key side))); [reflexivity|].
           f_equal. change (orv (look w ck (st ck)) five = orv (look w ck (over e inh ck)) five). apply look_orv. exact P3.
        -- rewrite H2. f_equal. change (orv (look w cf (st cf)) none = orv (look w cf (over e inh cf)) none). apply look_orv. exact P4.
Qed.
Lemma concatM_rel {A B C} (f : A -> res (list B)) (g : A -> list C) (R : B -> C -> Prop) l outs :
  Forall (fun a => forall o, f a = Ok o -> Forall2 R o (g a)) l -> concatM f l = Ok outs -> Forall2 R outs (flat_map g l).
Proof.
  intros H. revert outs. induction H as [|a l Ha H IH]; intros outs E; cbn [concatM flat_map] in *.
  - injection E as <-. constructor.
  - destruct (f a) as [x|]; cbn [bind] in E; [|discriminate]. fold (concatM f) in E. destruct (concatM f l) as [y|]; cbn [bind] in E; [|discriminate].
    injection E as <-. apply Forall2_app; [apply Ha|apply IH]; reflexivity.
Qed.
Lemma map_rel {B C} (R R' : B -> C -> Prop) (h : C -> C) l m : (forall b c, R b c -> R' b (h c)) -> Forall2 R l m -> Forall2 R' l (map h m).
Proof. intros H F. induction F; constructor; auto. Qed.

Lemma plain_not_ck k : plain k -> k <> ck /\ k <> cf.
Proof. intros (H & _). split; intros ->; apply H; cbv [cell_keys app In ck cf]; auto. Qed.
Lemma cell_removed st side : In side sides -> content_style st (cell_key side) = None.
Proof.
  intros H. cbv [sides In] in H. unfold content_style, sides. cbn [fold_left].
  destruct H as [<-|[<-|[<-|[<-|[]]]]]; unfold remove; cbv -[str_eqb]; reflexivity.
Qed.

Lemma ck_removed st : content_style st ck = None /\ content_style st cf = None.
Proof. split; reflexivity. Qed.
Lemma side_keys side : In side sides -> cell_key side <> ck /\ cell_key side <> cf /\ ~ In (cell_key side) border_keys /\ cell_key side <> lit "margin_bottom".
Proof.
  intros H. cbv [sides In] in H. destruct H as [<-|[<-|[<-|[<-|[]]]]]; (split; [discriminate|]); (split; [discriminate|]);
    (split; [intros [K|[K|[K|[]]]]; discriminate K|discriminate]).
Qed.
Lemma table_cell_key st side : In side sides -> table_style st (cell_key side) = st (cell_key side).
Proof.
  intros H. destruct (side_keys side H) as (K1 & K2 & K3 & _). unfold table_style.
  rewrite !remove_other; [|intros K; apply K3; rewrite K; cbv [border_keys In]; auto ..].
  unfold update. destruct (st (cell_key side)); [reflexivity|]. rewrite !single_other; [reflexivity|exact K1|exact K2].
Qed.
Lemma table_ck st : table_style st ck = Some (orv (st ck) five) /\ table_style st cf = Some (orv (st cf) none).
Proof.
  split.
  - change (table_style st ck) with (match st ck with Some v => Some v | None => Some five end). destruct (st ck); reflexivity.
  - change (table_style st cf) with (match st cf with Some v => Some v | None => Some none end). destruct (st cf); reflexivity.
Qed.
(** The style of an element, as its content has it. *)
Definition left_style (p : place) (st : sdict) : sdict := match p with InCell => content_style st | _ => st end.
Lemma left_pass p inh e st : element_style inh e = Ok st -> pass p inh e (left_style p st).
Proof.
  intros E. pose proof (element_says _ _ _ E) as S. unfold pass. destruct p; cbn [left_style is_cell].
  - split; [|split; [|split]]; intros; try apply S; f_equal; apply S.
  - split; [|split; [|split]]; intros; try apply S; f_equal; apply S.
  - split; [|split; [|split]].
    + intros k Hk. rewrite content_plain by apply Hk. apply S.
    + intros side Hs. apply cell_removed. exact Hs.
    + rewrite (proj1 (ck_removed st)). reflexivity.
    + rewrite (proj2 (ck_removed st)). reflexivity.
Qed.
Lemma pass_table p inh e st : pass p inh e st -> pass p inh e (table_style st).
Proof.
  intros (P1 & P2 & P3 & P4). split; [|split; [|split]].
  - intros k Hk. rewrite table_plain by apply Hk. apply P1, Hk.
  - intros side Hs. rewrite table_cell_key by exact Hs. apply P2, Hs.
  - rewrite (proj1 (table_ck st)). exact P3.
  - rewrite (proj2 (table_ck st)). exact P4.
Qed.
Definition with_bottom (st : sdict) : sdict := update (single (lit "margin_bottom") five) st.
Lemma pass_bottom p inh e st : pass p inh e st -> pass p inh e (with_bottom st).
Proof.
  intros (P1 & P2 & P3 & P4).
  assert (W : forall k, k <> lit "margin_bottom" -> with_bottom st k = st k).
  { intros k Hk. unfold with_bottom, update. destruct (st k); [reflexivity|]. apply single_other, Hk. }
  split; [|split; [|split]].
  - intros k Hk. rewrite W; [apply P1, Hk|]. intros ->. apply (proj2 (proj2 Hk)). left. reflexivity.
  - intros side Hs. rewrite W; [apply P2, Hs|]. apply (side_keys side Hs).
  - rewrite W by discriminate. exact P3.
  - rewrite W by discriminate. exact P4.
Qed.
Lemma pass_own inh e st own : element_style inh e = Ok st -> process_style (style_of e) = Ok own -> forall k, update (with_bottom st) own k = with_bottom st k.
Proof.
  intros E O k. unfold update at 1. destruct (own k) as [v|] eqn:Ek; [|reflexivity].
  unfold with_bottom, update. rewrite (element_says _ _ _ E k). unfold says. rewrite (process_written _ _ O), Ek. reflexivity.
Qed.
Lemma pass_ext p inh e st st' : (forall k, st' k = st k) -> pass p inh e st -> pass p inh e st'.
Proof. intros H (P1 & P2 & P3 & P4). unfold pass. split; [|split; [|split]]; intros; rewrite H; auto. Qed.

Lemma styles_rel e : forall p inh outs, (p = InCell -> inh ck <> None) -> styles p inh e = Ok outs -> Forall2 (rel inh) outs (targets p e).
Proof.
  assert (Q : forall p inh e outs inside l, (p = InCell -> inh ck <> None) ->
     element_style inh e = Ok l -> outs = (match p with InCell => UCell (cell_style l) :: inside | _ => inside end) ->
     forall T, Forall2 (rel inh) inside T -> Forall2 (rel inh) outs ((if is_cell p then [TCell [e] false] else []) ++ T)).
  { intros p inh e0 outs inside l Hi El -> T F. destruct p; cbn [is_cell app]; try exact F. constructor; [|exact F].
    pose proof (element_says _ _ _ El) as S. cbn [rel start look fold_left]. split.
    - intros side Hs. destruct (side_keys side Hs) as (K1 & K2 & _ & _). unfold cell_style.
      replace (existsb (fun side0 => str_eqb (cell_key side) (cell_key side0)) sides) with true.
      2:{ symmetry. apply existsb_exists. exists side. split; [exact Hs|apply str_eqb_refl]. }
      rewrite (S (cell_key side)). destruct (says e0 (cell_key side)); [reflexivity|]. destruct (inh (cell_key side)); [reflexivity|].
      f_equal. fold ck. rewrite (S ck). destruct (says e0 ck); [reflexivity|]. specialize (Hi eq_refl). destruct (inh ck); [reflexivity|contradiction].
    - change (cell_style l cf) with (Some (orv (l cf) none)). rewrite (S cf). reflexivity. }
  assert (L : forall p inh e0 l, element_style inh e0 = Ok l -> rel inh (ULeaf (left_style p l)) (TLeaf [e0])).
  { intros p inh e0 l E k Hk. destruct (left_pass p inh e0 l E) as (P1 & _). rewrite (P1 k Hk). reflexivity. }
  induction e as [s st|st|st rows IH|st ch IH|st ch IH] using elem_rec'; intros p inh outs Hi E; cbn [styles targets] in *.
  - destruct (element_style inh (EPar s st)) as [l|] eqn:El; cbn [bind] in E; [|discriminate]. injection E as <-.
    eapply Q; [exact Hi|exact El|reflexivity|]. constructor; [|constructor]. exact (L p inh _ _ El).
  - destruct (element_style inh (EImg st)) as [l|] eqn:El; cbn [bind] in E; [|discriminate]. injection E as <-.
    eapply Q; [exact Hi|exact El|reflexivity|]. constructor; [|constructor]. exact (L p inh _ _ El).
  - destruct (element_style inh (ETable st rows)) as [l|] eqn:El; cbn [bind] in E; [|discriminate]. fold (left_style p l) in E.
    destruct (concatM (concatM (styles InCell (table_style (left_style p l)))) rows) as [inside|] eqn:Ec; cbn [bind] in E; [|discriminate].
    injection E as <-. eapply Q; [exact Hi|exact El|reflexivity|].
    apply map_rel with (R := rel (table_style (left_style p l))).
    + intros u t. apply under_rel, pass_table, left_pass, El.
    + apply (concatM_rel (concatM (styles InCell (table_style (left_style p l)))) _ _ rows); [|exact Ec].
      eapply Forall_impl; [|exact IH]. intros row Hr o Eo. eapply concatM_rel; [|exact Eo].
      eapply Forall_impl; [|exact Hr]. intros c Hc o' Eo'. apply Hc; [|exact Eo']. intros _. rewrite (proj1 (table_ck _)). discriminate.
  - destruct (element_style inh (EBox st ch)) as [l|] eqn:El; cbn [bind] in E; [|discriminate]. fold (left_style p l) in E.
    destruct p.
    + destruct (process_style (style_of (EBox st ch))) as [own|] eqn:Eo; cbn [bind] in E; [|discriminate].
      fold (with_bottom (left_style InBox l)) in E.
      destruct (concatM (styles InBox (update (with_bottom (left_style InBox l)) own)) ch) as [inside|] eqn:Ec; cbn [bind] in E; [|discriminate].
      injection E as <-. eapply (Q InBox); [exact Hi|exact El|reflexivity|].
      apply map_rel with (R := rel (update (with_bottom (left_style InBox l)) own)).
      * intros u t. apply under_rel. eapply pass_ext; [|apply pass_bottom, (left_pass InBox), El]. exact (pass_own _ _ _ _ El Eo).
      * eapply concatM_rel; [|exact Ec]. eapply Forall_impl; [|exact IH]. intros c Hc o Eo'. apply Hc; [discriminate|exact Eo'].
    + discriminate.
    + fold (with_bottom (left_style InCell l)) in E.
      destruct (concatM (styles InBox (with_bottom (left_style InCell l))) ch) as [inside|] eqn:Ec; cbn [bind] in E; [|discriminate].
      injection E as <-. eapply (Q InCell); [exact Hi|exact El|reflexivity|].
      apply map_rel with (R := rel (with_bottom (left_style InCell l))).
      * intros u t. apply under_rel, pass_bottom, (left_pass InCell), El.
      * eapply concatM_rel; [|exact Ec]. eapply Forall_impl; [|exact IH]. intros c Hc o Eo'. apply Hc; [discriminate|exact Eo'].
  - destruct (element_style inh (EGroup st ch)) as [l|] eqn:El; cbn [bind] in E; [|discriminate]. fold (left_style p l) in E.
    destruct p.
    + destruct (concatM (styles InGroup (left_style InBox l)) ch) as [inside|] eqn:Ec; cbn [bind] in E; [|discriminate].
      injection E as <-. eapply (Q InBox); [exact Hi|exact El|reflexivity|].
      apply map_rel with (R := rel (left_style InBox l)).
      * intros u t. apply under_rel, (left_pass InBox), El.
      * eapply concatM_rel; [|exact Ec]. eapply Forall_impl; [|exact IH]. intros c Hc o Eo'. apply Hc; [discriminate|exact Eo'].
    + discriminate.
    + injection E as <-. eapply (Q InCell); [exact Hi|exact El|reflexivity|]. constructor.
Qed.
Lemma rel_said base u t : (forall k, In k cell_keys -> base k = None) -> rel base u t -> as_said base u t.
Proof.
  intros B. destruct u as [s|s], t as [w|w inner]; cbn [rel as_said]; try tauto.
  - intros H k Hk. split; [intros v N|intros N]; rewrite (H k Hk); [apply look_nearest, N|apply look_silent, N].
  - intros [H1 H2].
    assert (S0 : forall k, In k cell_keys -> start inner base k = None) by (intros k Hk; destruct inner; cbn [start]; auto).
    assert (Ks : forall side, In side sides -> In (cell_key side) cell_keys).
    { intros side Hs. unfold cell_keys. apply in_or_app. right. change margins with (map cell_key sides). apply in_map, Hs. }
    split; [intros k Hk; change margins with (map cell_key sides) in Hk; apply in_map_iff in Hk as (side & <- & Hs); split|].
    + intros v N. rewrite (H1 side Hs), (look_nearest _ _ _ _ N). reflexivity.
    + intros N. rewrite (H1 side Hs), (look_silent _ _ _ N), (S0 _ (Ks side Hs)). split.
      * intros v N2. unfold ck. rewrite (look_nearest _ _ _ _ N2). reflexivity.
      * intros N2. unfold ck. rewrite (look_silent _ _ _ N2), S0; [reflexivity|]. left. reflexivity.
    + fold cf. split.
      * intros v N. rewrite H2, (look_nearest _ _ _ _ N). reflexivity.
      * intros N. rewrite H2, (look_silent _ _ _ N), S0; [reflexivity|]. right. left. reflexivity.
Qed.

Lemma concatM_ok {A B} (f : A -> res (list B)) (P : A -> Prop) l :
  Forall (fun a => P a -> exists o, f a = Ok o) l -> All P l -> exists o, concatM f l = Ok o.
Proof.
  intros F. induction F as [|a l Ha F IH]; intros H; cbn [concatM All] in *; [eauto|].
  destruct H as [H1 H2]. destruct (Ha H1) as [x ->]. cbn [bind]. fold (concatM f). destruct (IH H2) as [y ->]. cbn [bind]. eauto.
Qed.
Lemma known_ok st : known st -> exists d, process_style st = Ok d.
Proof. destruct st; cbn [known process_style]; eauto; [|tauto]. destruct (formats n); [eauto|tauto]. Qed.
Lemma element_ok inh e p : fine p e -> exists st, element_style inh e = Ok st.
Proof.
  unfold element_style. destruct e; cbn [fine style_of]; intros [K H]; destruct (known_ok _ K) as [d ->]; cbn [bind]; eauto.
  destruct H as [d' ->]. cbn [bind]. eauto.
Qed.
Lemma styles_ok e : forall p inh, fine p e -> exists outs, styles p inh e = Ok outs.
Proof.
  induction e as [s st|st|st rows IH|st ch IH|st ch IH] using elem_rec'; intros p inh F; destruct (element_ok inh _ p F) as [l El]; cbn [styles];
    rewrite El; cbn [bind]; cbn [fine] in F; destruct F as [K F]; eauto.
  - edestruct (concatM_ok (concatM (styles InCell (table_style (match p with InCell => content_style l | _ => l end)))) (All (fine InCell)) rows) as [o Eo].
    + eapply Forall_impl; [|exact IH]. intros row Hr. apply (concatM_ok _ (fine InCell)). eapply Forall_impl; [|exact Hr]. intros c Hc. apply Hc.
    + exact F.
    + rewrite Eo. cbn [bind]. eauto.
  - destruct F as [N F]. destruct p; [|contradiction|].
    + cbn [style_of] in *. destruct (known_ok _ K) as [d ->]. cbn [bind].
      edestruct (concatM_ok (styles InBox (update (update (single (lit "margin_bottom") five) l) d)) (fine InBox) ch) as [o Eo].
      * eapply Forall_impl; [|exact IH]. intros c Hc. apply Hc.
      * exact F.
      * rewrite Eo. cbn [bind]. eauto.
    + edestruct (concatM_ok (styles InBox (update (single (lit "margin_bottom") five) (content_style l))) (fine InBox) ch) as [o Eo].
      * eapply Forall_impl; [|exact IH]. intros c Hc. apply Hc.
      * exact F.
      * rewrite Eo. cbn [bind]. eauto.
  - destruct F as [-> F].
    edestruct (concatM_ok (styles InGroup l) (fine InGroup) ch) as [o Eo].
    + eapply Forall_impl; [|exact IH]. intros c Hc. apply Hc.
    + exact F.
    + rewrite Eo. cbn [bind]. eauto.
Qed.
End Styles.
Arguments sdict : clear implicits. Arguments sty : clear implicits. Arguments elem : clear implicits. Arguments used : clear implicits.
Arguments defaults : clear implicits. Arguments text_args : clear implicits. Arguments target : clear implicits. Arguments way : clear implicits.
