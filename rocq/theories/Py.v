(** Small fragment of python's run time shared by every part of the model:
    exceptions as values, text as lists of code points, bytes as lists of
    numbers, decimal printing of integers. *)
From Coq Require Export List NArith ZArith Bool Lia ZifyBool.
From Coq Require Import String Ascii.
Export ListNotations.
Open Scope N_scope.

(** Code points of a python [str] / the bytes of a python [bytes]. *)
Definition str := list N.
Definition bytes := list N.

(** Python exceptions that the modelled code can raise. *)
Inductive exn : Type :=
| TypeError | ValueError | KeyError | IndexError | AttributeError
| UnicodeEncodeError | UnicodeDecodeError | NotImplementedError | PyException
| SyntaxErr | StructError | ZeroDivisionError | StopIteration
| OutOfFuel  (* never raised by python: the model ran out of fuel *).

Inductive res (A : Type) : Type :=
| Ok : A -> res A
| Err : exn -> res A.
Arguments Ok {A}. Arguments Err {A}.

Definition bind {A B} (x : res A) (f : A -> res B) : res B :=
  match x with Ok a => f a | Err e => Err e end.
Notation "'do' x <- e ; f" := (bind e (fun x => f))
  (at level 200, x pattern, e at level 100, f at level 200).

Definition is_ok {A} (x : res A) : bool :=
  match x with Ok _ => true | Err _ => false end.

(** Literals: [lit "abc"] is the list of the code points of the text. *)
Fixpoint lit (s : string) : list N :=
  match s with
  | EmptyString => []
  | String c r => N_of_ascii c :: lit r
  end.

Definition NL : N := 10.

Fixpoint str_eqb (a b : list N) : bool :=
  match a, b with
  | [], [] => true
  | x :: a', y :: b' => (x =? y) && str_eqb a' b'
  | _, _ => false
  end.

Lemma str_eqb_eq a b : str_eqb a b = true <-> a = b.
Proof.
  revert b; induction a as [|x a IH]; intros [|y b]; cbn [str_eqb];
    try (split; [discriminate|discriminate]).
  - tauto.
  - rewrite andb_true_iff, N.eqb_eq, IH. split.
    + intros [-> ->]; reflexivity.
    + intros [= -> ->]; auto.
Qed.

Lemma str_eqb_refl a : str_eqb a a = true.
Proof. apply str_eqb_eq; reflexivity. Qed.

Lemma str_eqb_neq a b : str_eqb a b = false <-> a <> b.
Proof.
  rewrite <- not_true_iff_false, str_eqb_eq. tauto.
Qed.

Lemma str_eq_dec (a b : str) : {a = b} + {a <> b}.
Proof. apply list_eq_dec, N.eq_dec. Qed.

Lemma str_eqb_sym a b : str_eqb a b = str_eqb b a.
Proof.
  destruct (str_eqb a b) eqn:E.
  - apply str_eqb_eq in E; subst; symmetry; apply str_eqb_refl.
  - symmetry. apply str_eqb_neq. apply str_eqb_neq in E. congruence.
Qed.

(** [s.encode('latin')]: one byte per character, error above 255. *)
Definition encode_latin (s : str) : res bytes :=
  if forallb (fun c => c <? 256) s then Ok s else Err UnicodeEncodeError.

Lemma encode_latin_ok s b : encode_latin s = Ok b -> b = s.
Proof. unfold encode_latin. destruct forallb; intros [=]; auto. Qed.

(** Decimal text of a number: [str(n)] for [n >= 0]. *)
Fixpoint digits_aux (fuel : nat) (n : N) (acc : str) : str :=
  match fuel with
  | O => acc
  | S f =>
      let acc' := (48 + n mod 10) :: acc in
      if n <? 10 then acc' else digits_aux f (n / 10) acc'
  end.
Definition dec (n : N) : str := digits_aux (S (N.size_nat n)) n [].

Definition is_digit (c : N) : bool := (48 <=? c) && (c <=? 57).

(** Value of a list of decimal digits. *)
Definition val10_from (a : N) (ds : str) : N :=
  fold_left (fun a d => a * 10 + (d - 48)) ds a.
Definition val10 (ds : str) : N := val10_from 0 ds.

(** [str(z)] for an arbitrary python int. *)
Definition dec_Z (z : Z) : str :=
  match z with
  | Z0 => dec 0
  | Zpos p => dec (Npos p)
  | Zneg p => 45 :: dec (Npos p)
  end.

(** Longest prefix whose elements satisfy [p], and the remainder. *)
Fixpoint span {A} (p : A -> bool) (l : list A) : list A * list A :=
  match l with
  | [] => ([], [])
  | x :: r => if p x then let '(a, b) := span p r in (x :: a, b) else ([], l)
  end.

Lemma span_app_all {A} (p : A -> bool) a b :
  forallb p a = true ->
  match b with [] => True | x :: _ => p x = false end ->
  span p (a ++ b) = (a, b).
Proof.
  induction a as [|x a IH]; cbn [forallb app span]; intros Ha Hb.
  - destruct b as [|y b]; cbn [span]; [reflexivity|]. now rewrite Hb.
  - apply andb_true_iff in Ha as [Hx Ha]. rewrite Hx, IH by assumption.
    reflexivity.
Qed.

Lemma span_eq {A} (p : A -> bool) l a b : span p l = (a, b) -> l = (a ++ b)%list.
Proof.
  revert a b; induction l as [|x l IH]; cbn [span]; intros a b H.
  - injection H as <- <-; reflexivity.
  - destruct (p x).
    + destruct (span p l) as [a' b'] eqn:E. injection H as <- <-.
      cbn [app]. f_equal. now apply IH.
    + injection H as <- <-; reflexivity.
Qed.

Lemma span_all {A} (p : A -> bool) l a b : span p l = (a, b) -> forallb p a = true.
Proof.
  revert a b; induction l as [|x l IH]; cbn [span]; intros a b H.
  - injection H as <- <-; reflexivity.
  - destruct (p x) eqn:E.
    + destruct (span p l) as [a' b'] eqn:E'. injection H as <- <-.
      cbn [forallb]. rewrite E. cbn [andb]. eapply IH; reflexivity.
    + injection H as <- <-; reflexivity.
Qed.

Lemma span_stop {A} (p : A -> bool) l a b :
  span p l = (a, b) -> match b with [] => True | x :: _ => p x = false end.
Proof.
  revert a b; induction l as [|x l IH]; cbn [span]; intros a b H.
  - injection H as <- <-; exact I.
  - destruct (p x) eqn:E.
    + destruct (span p l) as [a' b'] eqn:E'. injection H as <- <-.
      eapply IH; reflexivity.
    + injection H as <- <-; exact E.
Qed.

Lemma size_nat_bound n : n < 2 ^ N.of_nat (N.size_nat n).
Proof.
  destruct n as [|p]; [reflexivity|].
  cbn [N.size_nat].
  induction p as [p IH|p IH|].
  - cbn [Pos.size_nat]. rewrite Nat2N.inj_succ, N.pow_succ_r'. lia.
  - cbn [Pos.size_nat]. rewrite Nat2N.inj_succ, N.pow_succ_r'. lia.
  - reflexivity.
Qed.

Lemma digits_aux_acc f n acc : digits_aux f n acc = (digits_aux f n [] ++ acc)%list.
Proof.
  revert n acc; induction f as [|f IH]; intros n acc; cbn [digits_aux]; [reflexivity|].
  destruct (n <? 10); [reflexivity|].
  rewrite IH, (IH _ [_]). now rewrite <- app_assoc.
Qed.

Lemma div10_bound n k : n < 2 ^ (1 + k) -> n / 10 < 2 ^ k.
Proof.
  rewrite N.pow_add_r. change (2 ^ 1) with 2. intros H.
  apply N.div_lt_upper_bound; lia.
Qed.

Lemma digits_aux_forall f n :
  forallb is_digit (digits_aux f n []) = true.
Proof.
  revert n; induction f as [|f IH]; intros n; cbn [digits_aux]; [reflexivity|].
  assert (Hd : is_digit (48 + n mod 10) = true).
  { unfold is_digit. pose proof (N.mod_lt n 10 ltac:(discriminate)) as Hm.
    apply andb_true_iff; split; apply N.leb_le; [apply N.le_add_r|lia]. }
  destruct (n <? 10).
  - cbn [forallb]. now rewrite Hd.
  - rewrite digits_aux_acc, forallb_app, IH. cbn [forallb]. now rewrite Hd.
Qed.

Lemma val10_from_app a x y : val10_from a (x ++ y) = val10_from (val10_from a x) y.
Proof. apply fold_left_app. Qed.

Lemma digits_aux_val f n :
  n < 2 ^ N.of_nat f -> val10_from 0 (digits_aux (S f) n []) = n.
Proof.
  revert n; induction f as [|f IH]; intros n Hn.
  - change (2 ^ N.of_nat 0) with 1 in Hn. assert (n = 0) by lia. subst.
    reflexivity.
  - change (digits_aux (S (S f)) n []) with
      (if n <? 10 then [48 + n mod 10]
       else digits_aux (S f) (n / 10) [48 + n mod 10]).
    destruct (n <? 10) eqn:E.
    + apply N.ltb_lt in E. unfold val10_from. cbn [fold_left].
      rewrite (N.mod_small n 10) by assumption. lia.
    + rewrite Nat2N.inj_succ, <- N.add_1_l in Hn. apply div10_bound in Hn.
      rewrite digits_aux_acc, val10_from_app, (IH _ Hn).
      unfold val10_from. cbn [fold_left]. rewrite (N.add_comm 48), N.add_sub.
      pose proof (N.div_mod n 10 ltac:(discriminate)). lia.
Qed.

Lemma dec_digits n : forallb is_digit (dec n) = true.
Proof. apply digits_aux_forall. Qed.

Lemma dec_val n : val10 (dec n) = n.
Proof. apply digits_aux_val, size_nat_bound. Qed.

Lemma dec_nonempty n : dec n <> [].
Proof.
  unfold dec. cbn [digits_aux]. destruct (n <? 10); [discriminate|].
  rewrite digits_aux_acc. intros H. apply app_eq_nil in H as [_ H]. discriminate.
Qed.

Lemma dec_inj a b : dec a = dec b -> a = b.
Proof. intros H. rewrite <- (dec_val a), <- (dec_val b). now rewrite H. Qed.

Lemma dec_cons n : exists d r, dec n = d :: r /\ is_digit d = true
  /\ forallb is_digit r = true.
Proof.
  pose proof (dec_digits n) as H. pose proof (dec_nonempty n) as H'.
  destruct (dec n) as [|d r]; [congruence|]. exists d, r.
  cbn [forallb] in H. apply andb_true_iff in H. tauto.
Qed.

Lemma digit_lt_256 c : is_digit c = true -> c < 256.
Proof.
  unfold is_digit. rewrite andb_true_iff, !N.leb_le. lia.
Qed.

Lemma encode_latin_small s : forallb (fun c => c <? 256) s = true -> encode_latin s = Ok s.
Proof. unfold encode_latin. now intros ->. Qed.

Lemma encode_latin_inv s b : encode_latin s = Ok b ->
  b = s /\ forallb (fun c => c <? 256) s = true.
Proof. unfold encode_latin. destruct forallb; intros [=]; auto. Qed.

Lemma digits_latin s : forallb is_digit s = true -> forallb (fun c => c <? 256) s = true.
Proof.
  rewrite !forallb_forall. intros H x Hx. apply N.ltb_lt, digit_lt_256; auto.
Qed.

Lemma forallb_app_iff {A} (p : A -> bool) a b :
  forallb p (a ++ b) = true <-> forallb p a = true /\ forallb p b = true.
Proof. rewrite forallb_app, andb_true_iff. tauto. Qed.

(** [text.zfill(w)] for a text of digits. *)
Definition zfill (w : nat) (s : str) : str := repeat 48 (w - List.length s) ++ s.

Lemma val10_zeros k s : val10 (repeat 48 k ++ s) = val10 s.
Proof. unfold val10. induction k as [|k IH]; cbn [repeat app]; [reflexivity|exact IH]. Qed.

Lemma zfill_val w s : val10 (zfill w s) = val10 s.
Proof. apply val10_zeros. Qed.

Lemma zfill_digits w s : forallb is_digit s = true -> forallb is_digit (zfill w s) = true.
Proof.
  intros H. unfold zfill. apply forallb_app_iff. split; [|exact H].
  apply forallb_forall. intros x Hx. apply repeat_spec in Hx. subst. reflexivity.
Qed.

Lemma digits_aux_len f n k :
  n < 10 ^ N.of_nat k -> (0 < k)%nat -> (List.length (digits_aux f n []) <= k)%nat.
Proof.
  revert n k; induction f as [|f IH]; intros n k Hn Hk; cbn [digits_aux].
  - cbn. lia.
  - destruct (n <? 10) eqn:E; [cbn; lia|].
    apply N.ltb_ge in E.
    rewrite digits_aux_acc, app_length. cbn [List.length].
    destruct k as [|[|k]]; [lia| |].
    + change (10 ^ N.of_nat 1) with 10 in Hn. lia.
    + assert (n / 10 < 10 ^ N.of_nat (S k)) as Hd.
      { apply N.div_lt_upper_bound; [discriminate|].
        rewrite Nat2N.inj_succ, N.pow_succ_r' in Hn. exact Hn. }
      specialize (IH (n / 10) (S k) Hd ltac:(lia)). lia.
Qed.

Lemma dec_len n k : n < 10 ^ N.of_nat k -> (0 < k)%nat -> (List.length (dec n) <= k)%nat.
Proof. apply digits_aux_len. Qed.

Lemma zfill_len w s : (List.length s <= w)%nat -> List.length (zfill w s) = w.
Proof. intros H. unfold zfill. rewrite app_length, repeat_length. lia. Qed.

(** Removing an expected prefix. *)
Fixpoint strip (p l : list N) : option (list N) :=
  match p with
  | [] => Some l
  | x :: p' => match l with
               | [] => None
               | y :: l' => if x =? y then strip p' l' else None
               end
  end.

Lemma strip_app p l : strip p (p ++ l) = Some l.
Proof. induction p as [|x p IH]; cbn [strip app]; [reflexivity|]. now rewrite N.eqb_refl. Qed.

Lemma strip_inv p l r : strip p l = Some r -> l = (p ++ r)%list.
Proof.
  revert l; induction p as [|x p IH]; intros l; cbn [strip].
  - intros [= ->]; reflexivity.
  - destruct l as [|y l]; [discriminate|]. destruct (x =? y) eqn:E; [|discriminate].
    apply N.eqb_eq in E; subst. intros H. cbn [app]. f_equal. now apply IH.
Qed.

(** The text [pat] occurs in [file] at byte offset [off]. *)
Definition at_offset (file : bytes) (off : N) (pat : bytes) : Prop :=
  exists pre post, file = (pre ++ pat ++ post)%list /\ N.of_nat (List.length pre) = off.

Definition blen (b : list N) : N := N.of_nat (List.length b).

Lemma blen_app a b : blen (a ++ b) = blen a + blen b.
Proof. unfold blen. rewrite app_length. lia. Qed.
