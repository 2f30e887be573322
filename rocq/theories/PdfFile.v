(** Specification: locating and reading the cross-reference section of a PDF
    file (ISO 32000-1, 7.5.4 and 7.5.5), independent of the model of pdfme. *)
From Verif Require Import Py PdfSyntax.
From Coq Require Import String.
Open Scope N_scope.
Open Scope list_scope.

(** The number between 'startxref' and '%%EOF' at the end of the file. *)
Definition startxref_of (file : bytes) : option N :=
  match strip (rev (NL :: lit "%%EOF")) (rev file) with
  | None => None
  | Some r1 =>
      let '(ds, r2) := span is_digit r1 in
      match ds, strip (rev (NL :: lit "startxref" ++ [NL])) r2 with
      | _ :: _, Some _ => Some (val10 (rev ds))
      | _, _ => None
      end
  end.

(** One entry of a cross-reference table: exactly 20 bytes
    [nnnnnnnnnn ggggg n/f eol]. *)
Definition read_entry (l : bytes) : option (N * N * bool * bytes) :=
  let a := firstn 10 l in
  let g := firstn 5 (skipn 11 l) in
  if (Nat.leb 20 (List.length l)) && forallb is_digit a && forallb is_digit g
     && str_eqb (firstn 1 (skipn 10 l)) [32]
     && str_eqb (firstn 1 (skipn 16 l)) [32]
     && str_eqb (firstn 2 (skipn 18 l)) [32; 10]
  then
    if str_eqb (firstn 1 (skipn 17 l)) (lit "n") then
      Some (val10 a, val10 g, true, skipn 20 l)
    else if str_eqb (firstn 1 (skipn 17 l)) (lit "f") then
      Some (val10 a, val10 g, false, skipn 20 l)
    else None
  else None.

Fixpoint read_entries (n : nat) (l : bytes) : option (list (N * N * bool) * bytes) :=
  match n with
  | O => Some ([], l)
  | S m =>
      match read_entry l with
      | None => None
      | Some (o, g, u, r) =>
          match read_entries m r with
          | Some (es, r') => Some ((o, g, u) :: es, r')
          | None => None
          end
      end
  end.

(** The single cross-reference section found through startxref: the entries
    of objects 0, 1, 2, ... and the bytes that follow the table. *)
Definition xref_of (file : bytes) : option (list (N * N * bool) * bytes) :=
  match startxref_of file with
  | None => None
  | Some off =>
      match strip (lit "xref" ++ NL :: lit "0 ") (skipn (N.to_nat off) file) with
      | None => None
      | Some r =>
          let '(ds, r2) := span is_digit r in
          match ds, strip [NL] r2 with
          | _ :: _, Some r3 => read_entries (N.to_nat (val10 ds)) r3
          | _, _ => None
          end
      end
  end.
