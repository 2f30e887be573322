(** Model of the Roman numerals of pdfme/utils.py 308-337. *)
From Verif Require Import Py.
From Coq Require Import String.
Open Scope N_scope.
Open Scope list_scope.

(** [one * n]. *)
Fixpoint str_mul (s : str) (n : nat) : str :=
  match n with O => [] | S m => s ++ str_mul s m end.

(** utils.py 308-309 [_roman_five]. *)
Definition roman_five (n : N) (one five : str) : str :=
  if n <? 4 then str_mul one (N.to_nat n)
  else if n =? 4 then one ++ five else five.

(** utils.py 311-313 [_roman_ten]; the conditional binds weaker than [+]. *)
Definition roman_ten (n : N) (one five ten : str) : str :=
  if n <? 5 then roman_five n one five
  else if 5 <? n then (if n <? 9 then five else []) ++ roman_five (n - 5) one ten
  else five.

(** utils.py 315-337 [to_roman]; [int(c)] of a digit character is [c - 48]. *)
Definition to_roman (z : Z) : res str :=
  if negb ((0 <? z)%Z && (z <? 4000)%Z) then Err PyException
  else
    let n := rev (dec_Z z) in
    let r0 := match n with
              | d :: _ => roman_ten (d - 48) (lit "I") (lit "V") (lit "X")
              | _ => [] end in
    let r1 := match n with
              | _ :: d :: _ => roman_ten (d - 48) (lit "X") (lit "L") (lit "C") ++ r0
              | _ => r0 end in
    let r2 := match n with
              | _ :: _ :: d :: _ => roman_ten (d - 48) (lit "C") (lit "D") (lit "M") ++ r1
              | _ => r1 end in
    let r3 := match n with
              | _ :: _ :: _ :: d :: _ => roman_ten (d - 48) (lit "M") [] [] ++ r2
              | _ => r2 end in
    Ok r3.

(** Specification: value of a numeral by the subtractive rule. *)
Definition letter_value (c : N) : Z :=
  if c =? 73 then 1 else if c =? 86 then 5 else if c =? 88 then 10
  else if c =? 76 then 50 else if c =? 67 then 100 else if c =? 68 then 500
  else if c =? 77 then 1000 else 0.
Fixpoint roman_value (s : str) : Z :=
  match s with
  | [] => 0
  | c :: r =>
      match r with
      | d :: _ => if (letter_value c <? letter_value d)%Z
                  then roman_value r - letter_value c
                  else roman_value r + letter_value c
      | [] => letter_value c
      end
  end%Z.

(** Specification: the shape M{0,3}(CM|CD|D?C{0,3})(XC|XL|L?X{0,3})(IX|IV|V?I{0,3}). *)
Fixpoint upto (n : nat) (c : N) (s : str) : str :=
  match n, s with
  | S m, x :: r => if x =? c then upto m c r else s
  | _, _ => s
  end.
Definition group (one five ten : N) (s : str) : str :=
  match strip [one; ten] s with
  | Some r => r
  | None => match strip [one; five] s with
            | Some r => r
            | None => upto 3 one (upto 1 five s)
            end
  end.
Definition canonical_roman (s : str) : bool :=
  match group 73 86 88 (group 88 76 67 (group 67 68 77 (upto 3 77 s))) with
  | [] => true
  | _ => false
  end.

Definition roman_ok (z : Z) : bool :=
  match to_roman z with
  | Ok r => (roman_value r =? z)%Z && canonical_roman r
  | Err _ => false
  end.

Lemma roman_sweep : forallb roman_ok (map Z.of_nat (seq 1 3999)) = true.
Proof. vm_compute. reflexivity. Qed.

Theorem to_roman_ok z : (0 < z < 4000)%Z ->
  exists r, to_roman z = Ok r /\ roman_value r = z /\ canonical_roman r = true.
Proof.
  intros H. pose proof roman_sweep as Hs. rewrite forallb_forall in Hs.
  specialize (Hs z). unfold roman_ok in Hs.
  assert (In z (map Z.of_nat (seq 1 3999))) as Hin.
  { apply in_map_iff. exists (Z.to_nat z). split; [lia|]. apply in_seq. lia. }
  specialize (Hs Hin). destruct (to_roman z) as [r|]; [|discriminate].
  exists r. split; [reflexivity|]. lia.
Qed.

Theorem to_roman_err z : ~ (0 < z < 4000)%Z -> to_roman z = Err PyException.
Proof.
  intros H. unfold to_roman. destruct (negb _) eqn:E; [reflexivity|]. lia.
Qed.
