(** Model of pdfme/base.py. *)
From Verif Require Import Py Parser.
From Coq Require Import String.
Open Scope N_scope.
Open Scope list_scope.

(** base.py 54-63: the fields of a [PDFBase]. *)
Record base := mkBase {
  b_version : str;
  b_content : list obj;
  b_trailer : list (str * obj);
  b_count : N
}.

(** base.py 54-63 [PDFBase.__init__]. *)
Definition base_init (version : str) (trailer : option obj) : res base :=
  match trailer with
  | None => Ok (mkBase version [] [] 1)
  | Some (ODict d) => Ok (mkBase version [] d 1)
  | Some _ => Err ValueError
  end.

(** base.py 83-87: every python type of the model but [None] is allowed. *)
Definition allowed (o : obj) : bool := match o with ONone => false | _ => true end.

(** base.py 65-91 [PDFBase.add]: returns the new object.
    In python the returned object and the stored one are the same object. *)
Definition base_add (b : base) (o : obj) : res obj * base :=
  if allowed o then
    let x := OObj (b_count b) o in
    (Ok x, mkBase (b_version b) (b_content b ++ [x]) (b_trailer b) (b_count b + 1))
  else (Err TypeError, b).

(** Python list indexing: position designated by index [i] in a list of
    length [n], negative indexes counting from the end. *)
Definition py_index (n : nat) (i : Z) : option nat :=
  let j := if (i <? 0)%Z then (Z.of_nat n + i)%Z else i in
  if (0 <=? j)%Z && (j <? Z.of_nat n)%Z then Some (Z.to_nat j) else None.

(** base.py 93-95 [__getitem__]; [Ok None] is python's [None]. *)
Definition base_get (b : base) (i : Z) : res (option obj) :=
  if (i =? 0)%Z then Ok None
  else match py_index (List.length (b_content b)) (i - 1) with
       | Some j => match nth_error (b_content b) j with
                   | Some o => Ok (Some o)
                   | None => Err IndexError
                   end
       | None => Err IndexError
       end.

Fixpoint list_set {A} (j : nat) (v : A) (l : list A) : list A :=
  match l, j with
  | [], _ => []
  | _ :: r, O => v :: r
  | x :: r, S j' => x :: list_set j' v r
  end.

(** base.py 97-99 [__setitem__]. *)
Definition base_set (b : base) (i : Z) (v : obj) : res unit * base :=
  if (0 <? i)%Z then
    match py_index (List.length (b_content b)) (i - 1) with
    | Some j => (Ok tt, mkBase (b_version b) (list_set j v (b_content b))
                               (b_trailer b) (b_count b))
    | None => (Err IndexError, b)
    end
  else (Ok tt, b).

(** base.py 105-106 [__len__]. *)
Definition base_len (b : base) : nat := List.length (b_content b).

Section Output.
Variable flate : bytes -> bytes.
(** base.py 114-115: the texts of the two uuids, in hexadecimal. *)
Variables u1 u2 : bytes.

(** base.py 123: ['%PDF-{}\n%%\x129\x129\x129\n'.format(version)]. *)
Definition header_text (v : str) : str :=
  lit "%PDF-" ++ v ++ NL :: lit "%%" ++ [18; 57; 18; 57; 18; 57; NL].

(** base.py 127. *)
Definition xref_head (n : N) : str :=
  NL :: lit "xref" ++ NL :: lit "0 " ++ dec n ++ NL :: lit "0000000000 65535 f " ++ [NL].

(** base.py 130. *)
Definition xref_entry (off : N) : str := zfill 10 (dec off) ++ lit " 00000 n " ++ [NL].

(** base.py 133-134: one indirect object. *)
Definition indirect (k : N) (body : bytes) : bytes :=
  dec k ++ lit " 0 obj" ++ NL :: body ++ NL :: lit "endobj" ++ [NL].

(** base.py 129-136: the loop over the objects; [i] is [i + 1], [count] the
    offset.  Returns the bytes written, the xref text added, the offset, the
    objects as left by serialization and the result. *)
Fixpoint out_objs (i count : N) (content : list obj)
  : bytes * str * N * list obj * res unit :=
  match content with
  | [] => ([], [], count, [], Ok tt)
  | o :: r =>
      let e := xref_entry count in
      match parse_obj flate o with
      | (Err x, o') => ([], e, count, o' :: r, Err x)
      | (Ok body, o') =>
          let b := indirect i body in
          let '(w, xr, c, r', res) := out_objs (i + 1) (count + blen b) r in
          (b ++ w, e ++ xr, c, o' :: r', res)
      end
  end.

Definition k_Size : str := lit "Size".
Definition k_ID : str := lit "ID".

(** base.py 138-140. *)
Definition final_trailer (b : base) : list (str * obj) :=
  let t := dset k_Size (OInt (Z.of_N (b_count b))) (b_trailer b) in
  if dmem k_ID t then t
  else dset k_ID (OSeq [OBytes (60 :: u1 ++ [62]); OBytes (60 :: u2 ++ [62])]) t.

(** base.py 117-148 [output]: the bytes written to the buffer, the result and
    the object afterwards.  All the text written is latin-1 except possibly
    the version, whose encoding error is raised first. *)
Definition base_output (b : base) : bytes * res unit * base :=
  match encode_latin (header_text (b_version b)) with
  | Err e => ([], Err e, b)
  | Ok header =>
      let '(w, xr, count, content', r) := out_objs 1 (blen header) (b_content b) in
      match r with
      | Err e => (header ++ w, Err e,
                  mkBase (b_version b) content' (b_trailer b) (b_count b))
      | Ok _ =>
          match parse_obj flate (ODict (final_trailer b)) with
          | (Err e, t') =>
              (header ++ w, Err e,
               mkBase (b_version b) content'
                 (match t' with ODict d => d | _ => [] end) (b_count b))
          | (Ok trailer, t') =>
              (header ++ w ++ xref_head (b_count b) ++ xr ++ lit "trailer" ++ NL :: trailer
               ++ NL :: lit "startxref" ++ NL :: dec (count + 1) ++ NL :: lit "%%EOF",
               Ok tt,
               mkBase (b_version b) content'
                 (match t' with ODict d => d | _ => [] end) (b_count b))
          end
      end
  end.
End Output.

(** Histories: any interleaving of the operations on a [PDFBase]. *)
Inductive base_op :=
| BAdd (o : obj)
| BSet (i : Z) (o : obj)
| BGet (i : Z)
| BOut (u1 u2 : bytes).

Definition base_step (flate : bytes -> bytes) (b : base) (op : base_op) : base :=
  match op with
  | BAdd o => snd (base_add b o)
  | BSet i o => snd (base_set b i o)
  | BGet _ => b
  | BOut u1 u2 => snd (base_output flate u1 u2 b)
  end.

Definition base_run (flate : bytes -> bytes) (b : base) (ops : list base_op) : base :=
  fold_left (base_step flate) ops b.

(** The states a program can reach: a fresh [PDFBase] and any history. *)
Definition base_reachable (flate : bytes -> bytes) (b : base) : Prop :=
  exists v t b0 ops, base_init v t = Ok b0 /\ b = base_run flate b0 ops.
