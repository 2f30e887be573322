(** Specification: the PDF object a python object is meant to become
    (the table in the class docstring of PDFBase, base.py 5-25).
    [None]: outside the documented representable values. *)
From Verif Require Import Py PdfSyntax Parser.
From Coq Require Import String.
Open Scope N_scope.

(** A name that needs no escape: regular characters other than '#'. *)
Definition plain_name (n : bytes) : bool :=
  forallb (fun c => is_regular c && negb (c =? 35) && (c <? 256)) n.

(** Text that needs no escape but parentheses: latin-1 without '\' and CR. *)
Definition plain_text (s : str) : bool :=
  forallb (fun c => (c <? 256) && negb (c =? 92) && negb (c =? 13)) s.

Definition is_hex (c : N) : bool :=
  match hex_val c with Some _ => true | None => false end.

Fixpoint hex_bytes (l : bytes) : bytes :=
  match l with
  | a :: b :: r =>
      match hex_val a, hex_val b with
      | Some x, Some y => 16 * x + y :: hex_bytes r
      | _, _ => []
      end
  | [a] => match hex_val a with Some x => [16 * x] | None => [] end
  | [] => []
  end.

(** [bytes] are written as they are: only names and hexadecimal strings are
    given a meaning here. *)
Definition denote_bytes (b : bytes) : option pval :=
  match b with
  | 47 :: n => if plain_name n then Some (VName n) else None
  | 60 :: r =>
      let h := removelast r in
      if forallb is_hex h && str_eqb r (h ++ [62])%list then Some (VStr (hex_bytes h))
      else None
  | _ => None
  end.

Fixpoint denote (o : obj) : option pval :=
  match o with
  | OObj _ v => denote v
  | ORef n => if (0 <=? n)%Z then Some (VRef (Z.to_N n) 0) else None
  | ODict d =>
      if dmem k_stream d then None
      else
        match (fix go (d : list (str * obj)) : option (list (bytes * pval)) :=
                 match d with
                 | [] => Some []
                 | (k, v) :: r =>
                     if plain_name k then
                       match denote v, go r with
                       | Some v', Some r' => Some ((k, v') :: r')
                       | _, _ => None
                       end
                     else None
                 end) d with
        | Some d' => Some (VDict d')
        | None => None
        end
  | OSeq l =>
      match (fix go (l : list obj) : option (list pval) :=
               match l with
               | [] => Some []
               | v :: r => match denote v, go r with
                           | Some v', Some r' => Some (v' :: r')
                           | _, _ => None
                           end
               end) l with
      | Some l' => Some (VArr l')
      | None => None
      end
  | OBytes b => denote_bytes b
  | OBool b => Some (VBool b)
  | OInt z => Some (VInt z)
  | OFloat r => if real_token r && forallb is_regular r && forallb (fun c => c <? 256) r
                then Some (VReal r) else None
  | OStr s => if plain_text s then Some (VStr s) else None
  | ONone => None
  end.

Fixpoint denote_dict (d : list (str * obj)) : option (list (bytes * pval)) :=
  match d with
  | [] => Some []
  | (k, v) :: r =>
      if plain_name k then
        match denote v, denote_dict r with
        | Some v', Some r' => Some ((k, v') :: r')
        | _, _ => None
        end
      else None
  end.

Fixpoint denote_seq (l : list obj) : option (list pval) :=
  match l with
  | [] => Some []
  | v :: r => match denote v, denote_seq r with
              | Some v', Some r' => Some (v' :: r')
              | _, _ => None
              end
  end.

Lemma denote_ODict d :
  denote (ODict d) = if dmem k_stream d then None
                     else match denote_dict d with Some x => Some (VDict x) | None => None end.
Proof. reflexivity. Qed.

Lemma denote_OSeq l :
  denote (OSeq l) = match denote_seq l with Some x => Some (VArr x) | None => None end.
Proof. reflexivity. Qed.
