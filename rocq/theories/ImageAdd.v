(** Model of opening an image (pdfme/image.py 31-169) and of adding it to the
    page (pdfme/pdf.py 343-458, pdfme/page.py 159-188). *)
From Coq Require Import String QArith Lqa.
From Verif Require Import Py PyStr Jpeg Gfx PageGeom.
Open Scope N_scope.
Open Scope list_scope.

(** ** Opening *)

(** The argument [image] of the constructor: the text of a path, as a [str] or
    as a [pathlib.Path]; a stream with its bytes and its position; any other
    object. *)
Inductive source := FromStr (path : str) | FromPath (path : str) | FromStream (data : bytes) (pos : nat) | FromOther.
(** The argument [extension]: [None], a string, or an object of another type. *)
Inductive ext_arg := ENone | EStr (s : str) | EOther.

(** What the constructor does to files: in the order of time. *)
Inductive event := Opened (path : str) | Closed (path : str) | ClosedStream.

(** The attributes of the new object: name, size, and the entries of the PDF
    object that depend on the image. *)
Record image := mkImage { im_name : str; im_jpeg : jpeg; im_data : bytes }.

(** [str.rpartition(".")[-1]]: what follows the last dot, or everything. *)
Fixpoint after_last_dot (s : str) : str :=
  match s with
  | [] => []
  | c :: r => if existsb (N.eqb 46) r then after_last_dot r else if c =? 46 then r else c :: r
  end.
(** [pathlib.PurePosixPath.name] of a normalized path that is not the root, and
    [.suffix]: the last dot and what follows, if the dot is neither the first
    nor the last character of the name. *)
Fixpoint base_name (s : str) : str :=
  match s with
  | [] => []
  | c :: r => if existsb (N.eqb 47) r then base_name r else if c =? 47 then r else c :: r
  end.
Definition suffix (path : str) : str :=
  let n := base_name path in
  let e := after_last_dot n in
  if existsb (N.eqb 46) n && negb (List.length e =? 0)%nat && (S (List.length e) <? List.length n)%nat
  then 46 :: e else [].

(** image.py 65-68. [lower] is exact for the comparisons that follow: no other
    letter than an ASCII one becomes a letter of "jpg", "jpeg" or "png". *)
Definition normalize (e : str) : str :=
  py_lower (py_strip (match e with c :: r => if c =? 46 then r else e | [] => e end)).

Inductive format := Jpg | Png.
Definition format_of (e : str) : option format :=
  if str_eqb e (lit "jpg") || str_eqb e (lit "jpeg") then Some Jpg
  else if str_eqb e (lit "png") then Some Png else None.

Section Files.
(** [Path.open("rb")]: the contents of the file, or the exception. *)
Variable fs : str -> res bytes.
(** Pillow: [Image.open(bytes_).convert("RGB")] saved as JPEG, from a stream
    with these bytes and at this position; and the position in which a stream
    is left by a function that raises, and by Pillow. *)
Variable pillow : bytes -> nat -> res bytes.
Variable left_at : bytes -> nat -> nat.

(** image.py 82-147: the marker segments are read from the current position, the
    data from the beginning. *)
Definition read_jpg (n : str) (data : bytes) (pos : nat) : res image * nat :=
  match parse_jpg (skipn pos data) with
  | Ok j => (Ok (mkImage n j data), O)
  | Err e => (Err e, left_at data pos)
  end.
(** image.py 149-169. *)
Definition read_png (n : str) (data : bytes) (pos : nat) : res image * nat :=
  (do jpg <- pillow data pos; fst (read_jpg n jpg O), left_at data pos).

(** image.py 62-77. *)
Definition read_image (n : str) (e : str) (data : bytes) (pos : nat) : res image * nat :=
  match format_of (normalize e) with
  | Some Jpg => read_jpg n data pos
  | Some Png => read_png n data pos
  | None => (Err NotImplementedError, pos)
  end.

(** image.py 33-77, the [try] block: the result, the files that were opened, the
    variable [image_bytes] (the path of a file, or the stream that was given)
    and the position of that stream. *)
Inductive handle := HNone | HFile (path : str) | HStream.
Definition open_file (path : str) (dflt : str) (e : ext_arg) : res image * list event * handle * nat :=
  match fs path with
  | Err x => (Err x, [], HNone, O)
  | Ok data =>
      let '(r, _) := match e with
                     | ENone => read_image path dflt data O
                     | EStr s => read_image path s data O
                     | EOther => (Err TypeError, O)
                     end in
      (r, [Opened path], HFile path, O)
  end.
Definition try_block (s : source) (e : ext_arg) (n : option str) : res image * list event * handle * nat :=
  match s with
  | FromStr p => open_file p (after_last_dot p) e
  | FromPath p => open_file p (suffix p) e
  | FromStream data pos =>
      match n, e with
      | None, _ | _, ENone | _, EOther => (Err TypeError, [], HStream, pos)
      | Some n, EStr s => let '(r, pos') := read_image n s data pos in (r, [], HStream, pos')
      end
  | FromOther => (Err TypeError, [], HNone, O)
  end.
(** image.py 31-80 [PDFImage.__init__] with its [finally] block. *)
Definition is_stream (s : source) : bool := match s with FromStream _ _ => true | _ => false end.
Definition pdf_image (s : source) (e : ext_arg) (n : option str) : res image * list event * nat :=
  let '(r, ev, h, pos) := try_block s e n in
  (r, ev ++ (if is_stream s then []
             else match h with HNone => [] | HFile p => [Closed p] | HStream => [ClosedStream] end), pos).
End Files.

(** ** Adding to the page *)

Inductive move := MBottom | MNext | MOther.

Section Round.
Variable round3 : Q -> Q.
(** [width * h / w] and [height * w / h] with the size of the image. *)
Definition quotient (a : Q) (b c : N) : res Q :=
  if c =? 0 then Err ZeroDivisionError else Ok (a * inject_Z (Z.of_N b) / inject_Z (Z.of_N c))%Q.
(** pdf.py 404-411. *)
Definition image_size (p : page) (iw ih : N) (width height : option Q) : res (Q * Q) :=
  match width, height with
  | None, None => do h <- quotient (p_cw p) ih iw; Ok (p_cw p, h)
  | None, Some h => do w <- quotient h iw ih; Ok (w, h)
  | Some w, None => do h <- quotient w ih iw; Ok (w, h)
  | Some w, Some h => Ok (w, h)
  end.
(** pdf.py 397-424 [PDF.add_image] after the object of the image, with
    page.py 181-188, where [nm] is the name of the image in the page: the
    operators that are added to the page, and the page afterwards. *)
Definition add_image (p : page) (nm : str) (iw ih : N) (x y width height : option Q) (mv : move)
  : res (list gop * page) :=
  do wh <- image_size p iw ih width height;
  let (w, h) := wh in
  let p1 := set_cursor p (match x with Some v => v | None => p_x p end)
                         (match y with Some v => v | None => p_yb p end) in
  let ops := image_stream round3 nm w h (p_x p1) (p_yb p1) in
  Ok (ops, match mv with
           | MBottom => move_down p1 h
           | MNext => move_right p1 w
           | MOther => p1
           end).
End Round.
