(** Model of page sizes and margins: pdfme/utils.py 4-15, 54-137. *)
From Verif Require Import Py PyStr Parser Ranges.
From Coq Require Import String QArith.
Open Scope N_scope.
Open Scope list_scope.

(** utils.py 4-15 [page_sizes].  The floats are taken as the decimal numbers
    written in the source. *)
Definition milli (n : Z) : Q := (n # 1000)%Q.
Definition page_sizes : list (str * (Q * Q)) :=
  [ (lit "a5", (milli 419528, milli 595276));
    (lit "a4", (milli 595276, milli 841890));
    (lit "a3", (milli 841890, milli 1190551));
    (lit "b5", (milli 498898, milli 708661));
    (lit "b4", (milli 708661, milli 1000630));
    (lit "jis-b5", (milli 515906, milli 728504));
    (lit "jis-b4", (milli 728504, milli 1031812));
    (lit "letter", (612#1, 792#1)%Q);
    (lit "legal", (612#1, 1008#1)%Q);
    (lit "ledger", (792#1, 1224#1)%Q) ].

(** Values a caller can pass as page size. *)
Inductive psize :=
| PNum (q : Q)
| PName (s : str)
| PSeq (l : list Q)
| POther.

(** utils.py 54-83 [get_page_size]. *)
Definition get_page_size (p : psize) : res (list Q) :=
  match p with
  | PNum q => Ok [q; q]
  | PName s => match dget s page_sizes with
               | Some (w, h) => Ok [w; h]
               | None => Err KeyError
               end
  | PSeq l => Ok l
  | POther => Err PyException
  end.

(** [a, b = get_page_size(p)]: unpacking needs exactly two elements. *)
Definition page_pair (p : psize) : res (Q * Q) :=
  do l <- get_page_size p;
  match l with [w; h] => Ok (w, h) | _ => Err ValueError end.

(** Values a caller can pass as margin.  The elements of a list and the
    values of a dictionary are numbers. *)
Inductive mvalue :=
| MNum (q : Q)
| MStr (s : str)
| MList (l : list Q)
| MTuple (l : list Q)
| MDict (d : list (str * Q))
| MOther.

Definition sides : list str := [lit "top"; lit "right"; lit "bottom"; lit "left"].

Section Float.
(** [float(s)] of a text: python's float parser, any function. *)
Variable float_of : str -> res Q.

(** utils.py 126-135: the list branch.  [tuple + list] is a TypeError. *)
Definition margin_seq (is_list : bool) (m : list Q) : res (list (str * Q)) :=
  do l <- match m with
          | [] => Ok [0#1; 0#1; 0#1; 0#1]%Q
          | [a] => Ok [a; a; a; a]
          | [a; b] => Ok [a; b; a; b]
          | [a; b; c] => if is_list then Ok [a; b; c; b] else Err TypeError
          | [a; b; c; d] => Ok [a; b; c; d]
          | a :: b :: c :: d :: _ => Ok [a; b; c; d]
          end;
  Ok (combine sides l).

(** utils.py 85-137 [parse_margin].  [float(margin)] of a one element list is
    a TypeError. *)
Definition parse_margin (m : mvalue) : res (list (str * Q)) :=
  match m with
  | MDict d => Ok d
  | MStr s =>
      match split_by (fun c => (c =? 44) || (c =? 32)) s with
      | [_] => Err TypeError
      | parts => do l <- mapM float_of parts; margin_seq true l
      end
  | MNum q => margin_seq true [q; q; q; q]
  | MList l => margin_seq true l
  | MTuple l => margin_seq false l
  | MOther => Err TypeError
  end.

(** Specification: the CSS shorthand, in the order top, right, bottom, left. *)
Definition css (l : list Q) : Q * Q * Q * Q :=
  match l with
  | [] => (0#1, 0#1, 0#1, 0#1)%Q
  | [a] => (a, a, a, a)
  | [v; h] => (v, h, v, h)
  | [t; h; b] => (t, h, b, h)
  | t :: r :: b :: l :: _ => (t, r, b, l)
  end.
(** The margins of a dictionary. *)
Definition margins_are (d : list (str * Q)) (m : Q * Q * Q * Q) : Prop :=
  let '(t, r, b, l) := m in
  dget (lit "top") d = Some t /\ dget (lit "right") d = Some r /\
  dget (lit "bottom") d = Some b /\ dget (lit "left") d = Some l /\
  List.length d = 4%nat.

Lemma margin_seq_ok il l : il = true \/ List.length l <> 3%nat ->
  exists d, margin_seq il l = Ok d /\ margins_are d (css l).
Proof.
  intros H. destruct l as [|a [|b [|c [|d [|e r]]]]];
    try (eexists; split; [reflexivity|]; repeat split; reflexivity).
  destruct H as [->|H]; [|cbn in H; lia].
  eexists; split; [reflexivity|]; repeat split; reflexivity.
Qed.

(** What the documentation promises for each kind of value, apart from texts
    of a single number and tuples of three numbers. *)
Theorem parse_margin_spec m :
  match m with
  | MNum q => exists d, parse_margin m = Ok d /\ margins_are d (q, q, q, q)
  | MList l => exists d, parse_margin m = Ok d /\ margins_are d (css l)
  | MTuple l => List.length l <> 3%nat ->
      exists d, parse_margin m = Ok d /\ margins_are d (css l)
  | MStr s => forall parts qs sep, (sep = 44 \/ sep = 32) -> s = join sep parts ->
      (2 <= List.length parts)%nat ->
      Forall2 (fun p q => float_of p = Ok q /\ ~ In 44 p /\ ~ In 32 p) parts qs ->
      exists d, parse_margin m = Ok d /\ margins_are d (css qs)
  | MDict d => parse_margin m = Ok d
  | MOther => parse_margin m = Err TypeError
  end.
Proof.
  destruct m as [q|s|l|l|d|]; try reflexivity.
  - apply (margin_seq_ok true [q; q; q; q]). auto.
  - intros parts qs sep Hsep -> Hlen Hp.
    assert (split_by (fun c => (c =? 44) || (c =? 32)) (join sep parts) = parts) as Hs.
    { assert (Hne : parts <> []) by (destruct parts; [cbn in Hlen; lia|discriminate]). clear Hlen.
      induction Hp as [|p q ps qs (Hf & H1 & H2) Hp IH]; [congruence|].
      assert (Hc : forallb (fun c => negb ((c =? 44) || (c =? 32))) p = true).
      { apply forallb_forall. intros x Hx. apply negb_true_iff.
        assert (x <> 44) by (intros ->; auto). assert (x <> 32) by (intros ->; auto). lia. }
      destruct ps as [|p2 ps].
      - cbn [join]. apply split_by_none, Hc.
      - change (join sep (p :: p2 :: ps)) with (p ++ sep :: join sep (p2 :: ps)).
          rewrite split_by_app; [|exact Hc|lia]. f_equal. apply IH. discriminate. }
    cbn [parse_margin]. rewrite Hs.
    assert (Hm : mapM float_of parts = Ok qs).
    { clear Hlen Hs. induction Hp as [|p q ps qs (Hf & _) Hp IH]; [reflexivity|].
      cbn [mapM]. rewrite Hf. cbn [bind]. rewrite IH. reflexivity. }
    destruct parts as [|p1 [|p2 ps]]; cbn in Hlen; [lia|lia|].
    rewrite Hm. cbn [bind]. apply margin_seq_ok. auto.
  - apply margin_seq_ok. auto.
  - intros H. apply margin_seq_ok. auto.
Qed.

(** The two shapes for which the documented result is not returned. *)
Lemma margin_one_text s : ~ In 44 s -> ~ In 32 s -> parse_margin (MStr s) = Err TypeError.
Proof.
  intros H1 H2. cbn [parse_margin]. rewrite split_by_none; [reflexivity|].
  apply forallb_forall. intros x Hx. apply negb_true_iff.
  assert (x <> 44) by (intros ->; auto). assert (x <> 32) by (intros ->; auto). lia.
Qed.
Lemma margin_three_tuple a b c : parse_margin (MTuple [a; b; c]) = Err TypeError.
Proof. reflexivity. Qed.
End Float.
