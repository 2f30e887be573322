(** Python string functions used by the parsers of pdfme, and their laws. *)
From Verif Require Import Py.
From Coq Require Import String.
Open Scope N_scope.
Open Scope list_scope.

(** [s.split(c)] for a one-character separator; more generally for a
    separator class, as in [re.split(',| ', s)]. *)
Fixpoint split_by (p : N -> bool) (s : str) : list str :=
  match s with
  | [] => [[]]
  | c :: r =>
      if p c then [] :: split_by p r
      else match split_by p r with
           | x :: l => (c :: x) :: l
           | [] => [[c]]
           end
  end.
Definition split_on (c : N) : str -> list str := split_by (N.eqb c).

(** [sep.join(parts)] for a one-character separator. *)
Fixpoint join (c : N) (parts : list str) : str :=
  match parts with
  | [] => []
  | [x] => x
  | x :: r => x ++ c :: join c r
  end.

Lemma split_by_nonempty p s : split_by p s <> [].
Proof.
  destruct s as [|c r]; cbn [split_by]; [discriminate|].
  destruct (p c); [discriminate|]. destruct (split_by p r); discriminate.
Qed.

Lemma split_by_none p s : forallb (fun c => negb (p c)) s = true -> split_by p s = [s].
Proof.
  induction s as [|c s IH]; cbn [forallb split_by]; [reflexivity|].
  rewrite andb_true_iff, negb_true_iff. intros [-> H]. now rewrite IH.
Qed.

Lemma split_by_app p a c b : forallb (fun c => negb (p c)) a = true -> p c = true ->
  split_by p (a ++ c :: b) = a :: split_by p b.
Proof.
  induction a as [|x a IH]; cbn [forallb app split_by]; intros H Hc.
  - now rewrite Hc.
  - apply andb_true_iff in H as [Hx Ha]. apply negb_true_iff in Hx. rewrite Hx.
    now rewrite IH.
Qed.

Lemma split_join c parts : parts <> [] ->
  forallb (fun s => forallb (fun x => negb (c =? x)) s) parts = true ->
  split_on c (join c parts) = parts.
Proof.
  unfold split_on. induction parts as [|a parts IH]; [congruence|]. intros _ H.
  cbn [forallb] in H. apply andb_true_iff in H as [Ha H].
  destruct parts as [|b parts].
  - cbn [join]. now apply split_by_none.
  - cbn [join]. cbn [join] in IH.
    rewrite split_by_app; [|exact Ha|apply N.eqb_refl].
    f_equal. apply IH; [discriminate|exact H].
Qed.

Lemma split_join_inv c s : join c (split_on c s) = s.
Proof.
  unfold split_on. induction s as [|x s IH]; [reflexivity|].
  cbn [split_by]. destruct (c =? x) eqn:E.
  - apply N.eqb_eq in E; subst x.
    pose proof (split_by_nonempty (N.eqb c) s) as Hn.
    destruct (split_by (N.eqb c) s) as [|a l]; [congruence|].
    change (join c ([] :: a :: l)) with (c :: join c (a :: l)). now rewrite IH.
  - pose proof (split_by_nonempty (N.eqb c) s) as Hn.
    destruct (split_by (N.eqb c) s) as [|a l]; [congruence|].
    destruct l; cbn [join app] in *; congruence.
Qed.

(** White space removed by [str.strip] and accepted around numbers (the
    latin-1 part of python's set). *)
Definition is_space (c : N) : bool :=
  ((9 <=? c) && (c <=? 13)) || ((28 <=? c) && (c <=? 32)) || (c =? 133) || (c =? 160).

Fixpoint lstrip (s : str) : str :=
  match s with
  | c :: r => if is_space c then lstrip r else s
  | [] => []
  end.
Definition py_strip (s : str) : str := rev (lstrip (rev (lstrip s))).

Lemma lstrip_spaces a b : forallb is_space a = true -> lstrip (a ++ b) = lstrip b.
Proof.
  induction a as [|c a IH]; cbn [forallb app lstrip]; [reflexivity|].
  rewrite andb_true_iff. intros [-> H]. auto.
Qed.

Lemma lstrip_id s : match s with [] => True | c :: _ => is_space c = false end -> lstrip s = s.
Proof. destruct s as [|c s]; cbn [lstrip]; [reflexivity|]. now intros ->. Qed.

Lemma forallb_rev' {A} (p : A -> bool) l : forallb p (rev l) = forallb p l.
Proof.
  induction l as [|x l IH]; [reflexivity|]. cbn [rev forallb]. rewrite forallb_app, IH.
  cbn [forallb]. rewrite andb_true_r. apply andb_comm.
Qed.

(** No space inside: [strip] removes exactly the padding. *)
Lemma strip_pad a s b : forallb is_space a = true -> forallb is_space b = true ->
  forallb (fun c => negb (is_space c)) s = true ->
  py_strip (a ++ s ++ b) = s.
Proof.
  intros Ha Hb Hs. unfold py_strip. rewrite lstrip_spaces by exact Ha.
  destruct s as [|c s].
  - cbn [app]. replace (lstrip b) with (@nil N); [reflexivity|].
    symmetry. rewrite <- (app_nil_r b), lstrip_spaces by exact Hb. reflexivity.
  - rewrite (lstrip_id ((c :: s) ++ b)).
    2:{ cbn [app]. cbn [forallb] in Hs. apply andb_true_iff in Hs as [Hs _].
        now apply negb_true_iff. }
    rewrite rev_app_distr, lstrip_spaces by (now rewrite forallb_rev').
    rewrite lstrip_id; [apply rev_involutive|].
    destruct (rev (c :: s)) as [|x r] eqn:E; [exact I|].
    assert (In x (c :: s)) as Hin by (apply in_rev; rewrite E; now left).
    rewrite forallb_forall in Hs. apply Hs in Hin. now apply negb_true_iff.
Qed.

(** Digits with single underscores between them (PEP 515). *)
Fixpoint digits_us (prev : bool) (s : str) : option str :=
  match s with
  | [] => if prev then Some [] else None
  | c :: r =>
      if is_digit c then
        match digits_us true r with Some ds => Some (c :: ds) | None => None end
      else if (c =? 95) && prev then
        match r with
        | d :: _ => if is_digit d then digits_us false r else None
        | [] => None
        end
      else None
  end.

(** [int(text)]: surrounding white space, optional sign, digits.
    Digits outside ASCII are not modelled (the model raises). *)
Definition py_int (s : str) : res Z :=
  let t := py_strip s in
  let '(neg, u) := match t with
                   | c :: r => if c =? 45 then (true, r) else if c =? 43 then (false, r)
                               else (false, t)
                   | [] => (false, t)
                   end in
  match digits_us false u with
  | Some ds => Ok (if neg then (- Z.of_N (val10 ds)) else Z.of_N (val10 ds))%Z
  | None => Err ValueError
  end.

Lemma digits_us_digits ds : forallb is_digit ds = true -> ds <> [] -> forall p,
  digits_us p ds = Some ds.
Proof.
  induction ds as [|d ds IH]; [congruence|]. cbn [forallb]. rewrite andb_true_iff.
  intros [Hd H] _ p. cbn [digits_us]. rewrite Hd.
  destruct ds as [|e ds]; [reflexivity|]. rewrite IH; [reflexivity|exact H|discriminate].
Qed.

Lemma digit_not_space c : is_digit c = true -> is_space c = false.
Proof. unfold is_digit, is_space. lia. Qed.

Lemma dec_Z_no_space z : forallb (fun c => negb (is_space c)) (dec_Z z) = true.
Proof.
  assert (forall n, forallb (fun c => negb (is_space c)) (dec n) = true) as H.
  { intros n. pose proof (dec_digits n) as Hd. rewrite forallb_forall in *.
    intros x Hx. rewrite (digit_not_space x (Hd x Hx)). reflexivity. }
  destruct z; cbn [dec_Z]; apply H.
Qed.

Lemma py_int_dec a z b : forallb is_space a = true -> forallb is_space b = true ->
  py_int (a ++ dec_Z z ++ b) = Ok z.
Proof.
  intros Ha Hb. unfold py_int. rewrite strip_pad by (auto using dec_Z_no_space).
  assert (forall n, match match dec n with
                   | c :: r => if c =? 45 then (true, r) else if c =? 43 then (false, r)
                               else (false, dec n)
                   | [] => (false, dec n)
                   end with (neg, u) =>
      match digits_us false u with
      | Some ds => Ok (if neg then (- Z.of_N (val10 ds)) else Z.of_N (val10 ds))%Z
      | None => Err ValueError
      end end = Ok (Z.of_N n)) as H.
  { intros n. destruct (dec_cons n) as (d & r & E & Hd & _). rewrite E.
    assert ((d =? 45) = false) as -> by (unfold is_digit in Hd; lia).
    assert ((d =? 43) = false) as -> by (unfold is_digit in Hd; lia).
    rewrite <- E, digits_us_digits by (apply dec_digits || apply dec_nonempty).
    now rewrite dec_val. }
  destruct z; cbn [dec_Z].
  - apply H.
  - apply H.
  - change (45 =? 45) with true. cbv iota.
    rewrite digits_us_digits by (apply dec_digits || apply dec_nonempty).
    rewrite dec_val. reflexivity.
Qed.

Lemma dec_Z_chars z c : In c (dec_Z z) -> is_digit c = true \/ c = 45.
Proof.
  assert (forall n, In c (dec n) -> is_digit c = true) as H.
  { intros n. pose proof (dec_digits n) as Hd. rewrite forallb_forall in Hd. auto. }
  destruct z; cbn [dec_Z]; eauto. intros [<-|Hin]; eauto.
Qed.

(** [s.replace(a, b)] for a one-character [a]. *)
Fixpoint replace1 (a : N) (b : str) (s : str) : str :=
  match s with
  | [] => []
  | c :: r => if c =? a then b ++ replace1 a b r else c :: replace1 a b r
  end.

(** [s.lower()] on ASCII letters (other letters are not modelled). *)
Definition lower_ascii (c : N) : N := if (65 <=? c) && (c <=? 90) then c + 32 else c.
Definition py_lower (s : str) : str := map lower_ascii s.
