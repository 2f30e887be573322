(** Specification: a reader for PDF object syntax (ISO 32000-1, 7.2 and 7.3),
    written from the standard and independent of the model of pdfme. *)
From Verif Require Import Py.
From Coq Require Import String.
Open Scope N_scope.

(** PDF objects. *)
Inductive pval : Type :=
| VNull
| VBool (b : bool)
| VInt (z : Z)
| VReal (text : bytes)
| VName (name : bytes)
| VStr (s : bytes)
| VArr (l : list pval)
| VDict (d : list (bytes * pval))
| VRef (num gen : N).

(** 7.2.2 Character set. *)
Definition is_white (c : N) : bool := existsb (N.eqb c) [0; 9; 10; 12; 13; 32].
Definition is_delim (c : N) : bool :=
  existsb (N.eqb c) [40; 41; 60; 62; 91; 93; 123; 125; 47; 37].
Definition is_regular (c : N) : bool := negb (is_white c) && negb (is_delim c).

(** White space and comments (7.2.2, 7.2.3). *)
Fixpoint skip_ws (in_comment : bool) (l : bytes) : bytes :=
  match l with
  | [] => []
  | c :: r =>
      if in_comment then
        if (c =? 10) || (c =? 13) then skip_ws false r else skip_ws true r
      else if is_white c then skip_ws false r
      else if c =? 37 then skip_ws true r
      else l
  end.

Definition is_octal (c : N) : bool := (48 <=? c) && (c <=? 55).

(** 7.3.4.2 Literal strings, after the opening parenthesis; [depth] counts the
    open inner parentheses. *)
Fixpoint read_lit (depth : nat) (l : bytes) : option (bytes * bytes) :=
  let cons (c : N) (x : option (bytes * bytes)) :=
    match x with Some (s, r) => Some (c :: s, r) | None => None end in
  match l with
  | [] => None
  | c :: r =>
      if c =? 40 then cons 40 (read_lit (S depth) r)
      else if c =? 41 then
        match depth with O => Some ([], r) | S d => cons 41 (read_lit d r) end
      else if c =? 13 then
        match r with
        | [] => None
        | c2 :: r2 => if c2 =? 10 then cons 10 (read_lit depth r2)
                      else cons 10 (read_lit depth r)
        end
      else if c =? 92 then
        match r with
        | [] => None
        | e :: r1 =>
            if e =? 110 then cons 10 (read_lit depth r1)
            else if e =? 114 then cons 13 (read_lit depth r1)
            else if e =? 116 then cons 9 (read_lit depth r1)
            else if e =? 98 then cons 8 (read_lit depth r1)
            else if e =? 102 then cons 12 (read_lit depth r1)
            else if e =? 10 then read_lit depth r1
            else if e =? 13 then
              match r1 with
              | [] => None
              | c2 :: r2 => if c2 =? 10 then read_lit depth r2 else read_lit depth r1
              end
            else if is_octal e then
              match r1 with
              | [] => None
              | e2 :: r2 =>
                  if is_octal e2 then
                    match r2 with
                    | [] => None
                    | e3 :: r3 =>
                        if is_octal e3 then
                          cons (((e - 48) * 64 + (e2 - 48) * 8 + (e3 - 48)) mod 256)
                               (read_lit depth r3)
                        else cons ((e - 48) * 8 + (e2 - 48)) (read_lit depth r2)
                    end
                  else cons (e - 48) (read_lit depth r1)
              end
            else cons e (read_lit depth r1)
        end
      else cons c (read_lit depth r)
  end.

(** 7.3.4.3 Hexadecimal strings, after '<'. *)
Definition hex_val (c : N) : option N :=
  if is_digit c then Some (c - 48)
  else if (97 <=? c) && (c <=? 102) then Some (c - 87)
  else if (65 <=? c) && (c <=? 70) then Some (c - 55)
  else None.

Fixpoint read_hex (half : option N) (l : bytes) : option (bytes * bytes) :=
  match l with
  | [] => None
  | c :: r =>
      if c =? 62 then
        match half with None => Some ([], r) | Some h => Some ([16 * h], r) end
      else if is_white c then read_hex half r
      else match hex_val c with
           | None => None
           | Some v =>
               match half with
               | None => read_hex (Some v) r
               | Some h =>
                   match read_hex None r with
                   | Some (s, r') => Some (16 * h + v :: s, r')
                   | None => None
                   end
               end
           end
  end.

(** 7.3.5 Names: [#xx] in the regular characters after the solidus. *)
Fixpoint decode_name (l : bytes) : option bytes :=
  match l with
  | [] => Some []
  | c :: r =>
      if c =? 35 then
        match r with
        | h1 :: h2 :: r' =>
            match hex_val h1, hex_val h2, decode_name r' with
            | Some a, Some b, Some n => Some (16 * a + b :: n)
            | _, _, _ => None
            end
        | _ => None
        end
      else match decode_name r with Some n => Some (c :: n) | None => None end
  end.

(** 7.3.3 Numbers. *)
Definition unsign (t : bytes) : bool * bytes :=
  match t with
  | c :: r => if c =? 45 then (true, r) else if c =? 43 then (false, r) else (false, t)
  | [] => (false, t)
  end.
Definition nonempty {A} (l : list A) : bool := match l with [] => false | _ => true end.
Definition all_digits (t : bytes) : bool := nonempty t && forallb is_digit t.
Definition int_token (t : bytes) : option Z :=
  let '(neg, ds) := unsign t in
  if all_digits ds then
    Some (if neg then - Z.of_N (val10 ds) else Z.of_N (val10 ds))%Z
  else None.
Definition real_token (t : bytes) : bool :=
  let '(_, u) := unsign t in
  let '(a, b) := span is_digit u in
  match b with
  | c :: b' => (c =? 46) && forallb is_digit b' && (nonempty a || nonempty b')
  | [] => false
  end.

(** 7.3.10: is what follows an integer the rest of an indirect reference? *)
Definition ref_tail (l : bytes) : option (N * bytes) :=
  let '(t, r) := span is_regular (skip_ws false l) in
  if all_digits t then
    let '(t2, r2) := span is_regular (skip_ws false r) in
    if str_eqb t2 (lit "R") then Some (val10 t, r2) else None
  else None.

(** 7.3 Objects.  [read_obj] returns the first object in [l] and what follows. *)
Fixpoint read_obj (fuel : nat) (l0 : bytes) {struct fuel} : option (pval * bytes) :=
  match fuel with
  | O => None
  | S f =>
      match skip_ws false l0 with
      | [] => None
      | c :: r =>
          if c =? 47 then
            let '(t, r') := span is_regular r in
            match decode_name t with Some n => Some (VName n, r') | None => None end
          else if c =? 40 then
            match read_lit 0 r with Some (s, r') => Some (VStr s, r') | None => None end
          else if c =? 91 then
            match read_arr f r with Some (a, r') => Some (VArr a, r') | None => None end
          else if c =? 60 then
            match r with
            | c2 :: r2 =>
                if c2 =? 60 then
                  match read_dict f r2 with Some (d, r') => Some (VDict d, r') | None => None end
                else match read_hex None r with
                     | Some (s, r') => Some (VStr s, r')
                     | None => None
                     end
            | [] => None
            end
          else
            let '(t, r') := span is_regular (c :: r) in
            if str_eqb t (lit "true") then Some (VBool true, r')
            else if str_eqb t (lit "false") then Some (VBool false, r')
            else if str_eqb t (lit "null") then Some (VNull, r')
            else match int_token t with
                 | Some z =>
                     if all_digits t then
                       match ref_tail r' with
                       | Some (g, r'') => Some (VRef (val10 t) g, r'')
                       | None => Some (VInt z, r')
                       end
                     else Some (VInt z, r')
                 | None => if real_token t then Some (VReal t, r') else None
                 end
      end
  end
with read_arr (fuel : nat) (l0 : bytes) {struct fuel} : option (list pval * bytes) :=
  match fuel with
  | O => None
  | S f =>
      match skip_ws false l0 with
      | [] => None
      | c :: r =>
          if c =? 93 then Some ([], r)
          else match read_obj f (c :: r) with
               | None => None
               | Some (v, r') =>
                   match read_arr f r' with
                   | Some (a, r'') => Some (v :: a, r'')
                   | None => None
                   end
               end
      end
  end
with read_dict (fuel : nat) (l0 : bytes) {struct fuel} : option (list (bytes * pval) * bytes) :=
  match fuel with
  | O => None
  | S f =>
      match skip_ws false l0 with
      | [] => None
      | c :: r =>
          if c =? 62 then
            match r with
            | c2 :: r2 => if c2 =? 62 then Some ([], r2) else None
            | [] => None
            end
          else if c =? 47 then
            let '(t, r1) := span is_regular r in
            match decode_name t with
            | None => None
            | Some k =>
                match read_obj f r1 with
                | None => None
                | Some (v, r2) =>
                    match read_dict f r2 with
                    | Some (d, r3) => Some ((k, v) :: d, r3)
                    | None => None
                    end
                end
            end
          else None
      end
  end.

(** The reader reads [v] at the start of [l] and stops before [r]. *)
Definition reads (l : bytes) (v : pval) (r : bytes) : Prop :=
  exists f, read_obj f l = Some (v, r).
Definition reads_arr (l : bytes) (v : list pval) (r : bytes) : Prop :=
  exists f, read_arr f l = Some (v, r).
Definition reads_dict (l : bytes) (v : list (bytes * pval)) (r : bytes) : Prop :=
  exists f, read_dict f l = Some (v, r).

(** 7.3.8 Streams: dictionary, keyword, end of line, Length bytes, end of line,
    keyword. *)
Fixpoint assoc (k : bytes) (d : list (bytes * pval)) : option pval :=
  match d with
  | [] => None
  | (k', v) :: r => if str_eqb k k' then Some v else assoc k r
  end.

Definition reads_stream (l : bytes) (d : list (bytes * pval)) (payload r : bytes) : Prop :=
  exists l1 l2 n,
    reads l (VDict d) l1 /\
    strip (lit "stream" ++ [NL]) (skip_ws false l1) = Some l2 /\
    assoc (lit "Length") d = Some (VInt (Z.of_nat n)) /\
    (n <= List.length l2)%nat /\
    payload = firstn n l2 /\
    strip (NL :: lit "endstream") (skipn n l2) = Some r.

(** More fuel never changes a result: [reads] is a partial function. *)
Lemma read_mono f :
  (forall l x, read_obj f l = Some x -> forall g, (f <= g)%nat -> read_obj g l = Some x) /\
  (forall l x, read_arr f l = Some x -> forall g, (f <= g)%nat -> read_arr g l = Some x) /\
  (forall l x, read_dict f l = Some x -> forall g, (f <= g)%nat -> read_dict g l = Some x).
Proof.
  induction f as [|f [IHo [IHa IHd]]]; [repeat split; intros; discriminate|].
  repeat split; intros l x H g Hg; (destruct g as [|g]; [lia|]); apply le_S_n in Hg.
  - cbn [read_obj] in *. destruct (skip_ws false l) as [|c r]; [discriminate|].
    destruct (c =? 47); [exact H|]. destruct (c =? 40); [exact H|].
    destruct (c =? 91).
    { destruct (read_arr f r) as [y|] eqn:E; [|discriminate].
      rewrite (IHa _ _ E g Hg). exact H. }
    destruct (c =? 60); [|exact H].
    destruct r as [|c2 r2]; [discriminate|].
    destruct (c2 =? 60); [|exact H].
    destruct (read_dict f r2) as [y|] eqn:E; [|discriminate].
    rewrite (IHd _ _ E g Hg). exact H.
  - cbn [read_arr] in *. destruct (skip_ws false l) as [|c r]; [discriminate|].
    destruct (c =? 93); [exact H|].
    destruct (read_obj f (c :: r)) as [[v r']|] eqn:E; [|discriminate].
    rewrite (IHo _ _ E g Hg).
    destruct (read_arr f r') as [y|] eqn:E2; [|discriminate].
    rewrite (IHa _ _ E2 g Hg). exact H.
  - cbn [read_dict] in *. destruct (skip_ws false l) as [|c r]; [discriminate|].
    destruct (c =? 62); [exact H|]. destruct (c =? 47); [|discriminate].
    destruct (span is_regular r) as [t r1].
    destruct (decode_name t) as [k|]; [|discriminate].
    destruct (read_obj f r1) as [[v r2]|] eqn:E; [|discriminate].
    rewrite (IHo _ _ E g Hg).
    destruct (read_dict f r2) as [y|] eqn:E2; [|discriminate].
    rewrite (IHd _ _ E2 g Hg). exact H.
Qed.

Lemma reads_det l v r v' r' : reads l v r -> reads l v' r' -> v = v' /\ r = r'.
Proof.
  intros [f H] [g H'].
  apply (proj1 (read_mono f)) with (g := Nat.max f g) in H; [|lia].
  apply (proj1 (read_mono g)) with (g := Nat.max f g) in H'; [|lia].
  rewrite H in H'. now injection H' as -> ->.
Qed.
