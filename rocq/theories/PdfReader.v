(** Specification: what a reader of a PDF file finds (ISO 32000-1, 7.5 and
    7.7), from the end of the file through the cross-reference table, the
    trailer, the catalog and the page tree.  Independent of the model of
    pdfme. *)
From Verif Require Import Py PdfSyntax PdfFile.
From Coq Require Import String.
Open Scope N_scope.
Open Scope list_scope.

(** The cross-reference table sends the reader to object [id], and [post]
    follows the words that open it. *)
Definition object_at (file : bytes) (id : nat) (post : bytes) : Prop :=
  exists table rest off pre, xref_of file = Some (table, rest) /\
    nth_error table id = Some (off, 0, true) /\
    file = pre ++ dec (N.of_nat id) ++ lit " 0 obj" ++ NL :: post /\ blen pre = off.
(** Object [id] is the value [v]. *)
Definition value_at (file : bytes) (id : nat) (v : pval) : Prop :=
  exists post more, object_at file id post /\ reads post v (NL :: lit "endobj" ++ more).
(** Object [id] is a stream with the dictionary [d] and the data [data]. *)
Definition stream_at (file : bytes) (id : nat) (d : list (bytes * pval)) (data : bytes) : Prop :=
  exists post more, object_at file id post /\ reads_stream post d data (NL :: lit "endobj" ++ more).
(** The trailer after the table. *)
Definition trailer_is (file : bytes) (d : list (bytes * pval)) : Prop :=
  exists table rest tail, xref_of file = Some (table, lit "trailer" ++ NL :: rest) /\ reads rest (VDict d) tail.

Definition vref (id : nat) : pval := VRef (N.of_nat id) 0.
Definition vname (s : string) : pval := VName (lit s).

(** Page tree node [n] below [parent] with the pages [pages]. *)
Inductive pages_at (file : bytes) : nat -> option nat -> list nat -> Prop :=
| at_leaf p d parent : value_at file p (VDict d) ->
    assoc (lit "Type") d = Some (vname "Page") ->
    assoc (lit "Parent") d = Some (vref parent) ->
    pages_at file p (Some parent) [p]
| at_node n d parent kids leaves : value_at file n (VDict d) ->
    assoc (lit "Type") d = Some (vname "Pages") ->
    assoc (lit "Parent") d = option_map vref parent ->
    assoc (lit "Kids") d = Some (VArr (map vref kids)) ->
    assoc (lit "Count") d = Some (VInt (Z.of_nat (List.length (List.concat leaves)))) ->
    Forall2 (fun k l => pages_at file k (Some n) l) kids leaves ->
    pages_at file n parent (List.concat leaves).

(** The catalog. *)
Definition catalog_is (file : bytes) (d : list (bytes * pval)) : Prop :=
  exists t root, trailer_is file t /\ assoc (lit "Root") t = Some (vref root) /\ value_at file root (VDict d) /\
    assoc (lit "Type") d = Some (vname "Catalog").
(** The pages of the document. *)
Definition has_pages (file : bytes) (ids : list nat) : Prop :=
  exists d n, catalog_is file d /\ assoc (lit "Pages") d = Some (vref n) /\ pages_at file n None ids.
(** The dictionary of a kind of resources of the page with dictionary [d]. *)
Definition resource (kind : bytes) (d : list (bytes * pval)) (nm : bytes) : option pval :=
  match assoc (lit "Resources") d with
  | Some (VDict r) => match assoc kind r with Some (VDict m) => assoc nm m | _ => None end
  | _ => None
  end.
(** The annotations of the page with dictionary [d]. *)
Definition annotations (d : list (bytes * pval)) : list pval :=
  match assoc (lit "Annots") d with Some (VArr l) => l | _ => [] end.

(** ** Named destinations (7.9.6): node [n] of a name tree holds the pairs
    [l]; a node that is not the root announces its first and last name. *)
Inductive names_at (file : bytes) : bool -> nat -> list (bytes * pval) -> Prop :=
| names_leaf (root : bool) n d l : value_at file n (VDict d) ->
    assoc (lit "Names") d = Some (VArr (flat_map (fun kv => [VStr (fst kv); snd kv]) l)) ->
    assoc (lit "Kids") d = None ->
    assoc (lit "Limits") d = (if root then None else Some (VArr [VStr (hd [] (map fst l)); VStr (last (map fst l) [])])) ->
    l <> [] -> names_at file root n l
| names_node (root : bool) n d kids ls : value_at file n (VDict d) ->
    assoc (lit "Names") d = None ->
    assoc (lit "Kids") d = Some (VArr (map vref kids)) ->
    assoc (lit "Limits") d = (if root then None else
      Some (VArr [VStr (hd [] (map fst (List.concat ls))); VStr (last (map fst (List.concat ls)) [])])) ->
    Forall2 (fun k l => names_at file false k l) kids ls -> kids <> [] ->
    names_at file root n (List.concat ls).

(** ** Outlines (12.3.3) *)
Inductive item := Item (title dest : bytes) (children : list item).
(** The items with their depths, in the order they are read. *)
Fixpoint listed1 (depth : nat) (t : item) : list (nat * (bytes * bytes)) :=
  match t with Item title dest ch => (depth, (title, dest)) :: flat_map (listed1 (S depth)) ch end.
Definition listed (depth : nat) (l : list item) : list (nat * (bytes * bytes)) := flat_map (listed1 depth) l.
(** The items below [parent] from the reference [entry] on, after [prev]:
    [l], the last of which is [last] ([prev] if there is none). *)
Inductive items_at (file : bytes) (parent : nat) : option nat -> option pval -> list item -> option nat -> Prop :=
| items_nil prev : items_at file parent prev None [] prev
| items_cons prev id d title dest ch clast rest last : value_at file id (VDict d) ->
    assoc (lit "Title") d = Some (VStr title) -> assoc (lit "Dest") d = Some (VStr dest) ->
    assoc (lit "Parent") d = Some (vref parent) -> assoc (lit "Prev") d = option_map vref prev ->
    items_at file id None (assoc (lit "First") d) ch clast -> assoc (lit "Last") d = option_map vref clast ->
    items_at file parent (Some id) (assoc (lit "Next") d) rest last ->
    items_at file parent prev (Some (vref id)) (Item title dest ch :: rest) last.
(** The outline of the document, from its catalog [cat]. *)
Definition outline_is (file : bytes) (cat : list (bytes * pval)) (l : list item) : Prop :=
  match l with
  | [] => assoc (lit "Outlines") cat = None
  | _ => exists n d last, assoc (lit "Outlines") cat = Some (vref n) /\ value_at file n (VDict d) /\
           assoc (lit "Type") d = Some (vname "Outlines") /\ items_at file n None (assoc (lit "First") d) l (Some last) /\
           assoc (lit "Last") d = Some (vref last)
  end.
(** The named destinations of the document. *)
Definition names_are (file : bytes) (cat : list (bytes * pval)) (l : list (bytes * pval)) : Prop :=
  match l with
  | [] => assoc (lit "Names") cat = None
  | _ => exists nd n, assoc (lit "Names") cat = Some (VDict nd) /\ assoc (lit "Dests") nd = Some (vref n) /\ names_at file true n l
  end.
