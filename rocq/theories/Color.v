(** Model of pdfme/color.py: colour specifications. *)
From Coq Require Import String QArith Qpower Lqa.
From Verif Require Import Py PyStr Parser StreamProofs Gfx ColorNames.
Open Scope N_scope.
Open Scope list_scope.

(** ** Python's [float(text)] and [int(text, 16)] *)

(** Digits with single underscores between them, or nothing. *)
Definition opt_digits (s : str) : option str := match s with [] => Some [] | _ => digits_us false s end.
Definition is_digit_us (c : N) : bool := is_digit c || (c =? 95).
(** An optional sign: if it is a minus, and the rest. *)
Definition sign (s : str) : bool * str :=
  match s with
  | c :: r => if c =? 45 then (true, r) else if c =? 43 then (false, r) else (false, s)
  | [] => (false, s)
  end.
(** The value of [ds] with [k] of the digits after the point and exponent [e]. *)
Definition decimal (ds : str) (k : nat) (e : Z) : Q := (inject_Z (Z.of_N (val10 ds)) * Qpower 10 (e - Z.of_nat k))%Q.
(** The exponent: nothing, or e and an integer. *)
Definition exponent (s : str) : option Z :=
  match s with
  | [] => Some 0%Z
  | c :: r =>
      if (c =? 101) || (c =? 69) then
        let '(neg, u) := sign r in
        match digits_us false u with
        | Some ds => Some (if neg then - Z.of_N (val10 ds) else Z.of_N (val10 ds))%Z
        | None => None
        end
      else None
  end.
(** [float(s)].  Infinities and nan, and digits outside ASCII, are not
    modelled; the value is the exact decimal one. *)
Definition py_float (s : str) : option Q :=
  let '(neg, u) := sign (py_strip s) in
  let '(a, rest) := span is_digit_us u in
  let '(b, tail) := match rest with
                    | c :: r => if c =? 46 then span is_digit_us r else ([], rest)
                    | [] => ([], [])
                    end in
  match opt_digits a, opt_digits b, exponent tail with
  | Some x, Some y, Some e =>
      match x ++ y with
      | [] => None
      | _ => let q := decimal (x ++ y) (List.length y) e in Some (if neg then - q else q)%Q
      end
  | _, _, _ => None
  end.

Definition hex_val (c : N) : option N :=
  if is_digit c then Some (c - 48)
  else if (97 <=? c) && (c <=? 102) then Some (c - 87)
  else if (65 <=? c) && (c <=? 70) then Some (c - 55)
  else None.
Definition is_hex (c : N) : bool := match hex_val c with Some _ => true | None => false end.
Fixpoint hex_us (prev : bool) (s : str) (acc : N) : option N :=
  match s with
  | [] => if prev then Some acc else None
  | c :: r =>
      match hex_val c with
      | Some v => hex_us true r (acc * 16 + v)
      | None => if (c =? 95) && prev then hex_us false r acc else None
      end
  end.
(** [int(s, 16)] (digits outside ASCII are not modelled). *)
Definition py_int16 (s : str) : option Z :=
  let '(neg, u) := sign (py_strip s) in
  let v := match u with
           | z :: x :: r => if (z =? 48) && ((x =? 120) || (x =? 88)) then
                              match r with
                              | c :: r' => if c =? 95 then hex_us false r' 0 else hex_us false r 0
                              | [] => None
                              end
                            else hex_us false u 0
           | _ => hex_us false u 0
           end in
  match v with Some n => Some (if neg then - Z.of_N n else Z.of_N n)%Z | None => None end.

(** ** Colours *)

(** color.py 4-153: the named colours (decimals are exact). *)
Definition colors : list (str * list Q) :=
  [(lit "aliceblue", [941#1000; 973#1000; 1#1]);
   (lit "antiquewhite", [49#50; 461#500; 211#250]);
   (lit "aqua", [0#1; 1#1; 1#1]);
   (lit "aquamarine", [1#2; 1#1; 104#125]);
   (lit "azure", [941#1000; 1#1; 1#1]);
   (lit "beige", [961#1000; 961#1000; 863#1000]);
   (lit "bisque", [1#1; 179#200; 77#100]);
   (lit "black", [0#1; 0#1; 0#1]);
   (lit "blanchedalmond", [1#1; 461#500; 161#200]);
   (lit "blue", [0#1; 0#1; 1#1]);
   (lit "blueviolet", [543#1000; 43#250; 887#1000]);
   (lit "brown", [81#125; 21#125; 21#125]);
   (lit "burlywood", [871#1000; 723#1000; 531#1000]);
   (lit "cadetblue", [3#8; 621#1000; 629#1000]);
   (lit "chartreuse", [1#2; 1#1; 0#1]);
   (lit "chocolate", [103#125; 207#500; 121#1000]);
   (lit "coral", [1#1; 1#2; 79#250]);
   (lit "cornflowerblue", [79#200; 293#500; 93#100]);
   (lit "cornsilk", [1#1; 973#1000; 863#1000]);
   (lit "crimson", [863#1000; 41#500; 119#500]);
   (lit "cyan", [0#1; 1#1; 1#1]);
   (lit "darkblue", [0#1; 0#1; 547#1000]);
   (lit "darkcyan", [0#1; 547#1000; 547#1000]);
   (lit "darkgoldenrod", [723#1000; 527#1000; 47#1000]);
   (lit "darkgray", [83#125; 83#125; 83#125]);
   (lit "darkgrey", [83#125; 83#125; 83#125]);
   (lit "darkgreen", [0#1; 79#200; 0#1]);
   (lit "darkkhaki", [371#500; 719#1000; 211#500]);
   (lit "darkmagenta", [547#1000; 0#1; 547#1000]);
   (lit "darkolivegreen", [42#125; 211#500; 47#250]);
   (lit "darkorange", [1#1; 551#1000; 0#1]);
   (lit "darkorchid", [301#500; 199#1000; 801#1000]);
   (lit "darkred", [547#1000; 0#1; 0#1]);
   (lit "darksalmon", [457#500; 59#100; 12#25]);
   (lit "darkseagreen", [281#500; 369#500; 281#500]);
   (lit "darkslateblue", [57#200; 121#500; 547#1000]);
   (lit "darkslategray", [47#250; 39#125; 39#125]);
   (lit "darkslategrey", [47#250; 39#125; 39#125]);
   (lit "darkturquoise", [0#1; 809#1000; 41#50]);
   (lit "darkviolet", [291#500; 0#1; 207#250]);
   (lit "deeppink", [1#1; 41#500; 289#500]);
   (lit "deepskyblue", [0#1; 3#4; 1#1]);
   (lit "dimgray", [207#500; 207#500; 207#500]);
   (lit "dimgrey", [207#500; 207#500; 207#500]);
   (lit "dodgerblue", [121#1000; 283#500; 1#1]);
   (lit "firebrick", [699#1000; 137#1000; 137#1000]);
   (lit "floralwhite", [1#1; 49#50; 941#1000]);
   (lit "forestgreen", [137#1000; 547#1000; 137#1000]);
   (lit "fuchsia", [1#1; 0#1; 1#1]);
   (lit "gainsboro", [863#1000; 863#1000; 863#1000]);
   (lit "ghostwhite", [973#1000; 973#1000; 1#1]);
   (lit "gold", [1#1; 211#250; 0#1]);
   (lit "goldenrod", [171#200; 81#125; 129#1000]);
   (lit "gray", [63#125; 63#125; 63#125]);
   (lit "grey", [63#125; 63#125; 63#125]);
   (lit "green", [0#1; 63#125; 0#1]);
   (lit "greenyellow", [17#25; 1#1; 47#250]);
   (lit "honeydew", [941#1000; 1#1; 941#1000]);
   (lit "hotpink", [1#1; 207#500; 707#1000]);
   (lit "indianred", [161#200; 363#1000; 363#1000]);
   (lit "indigo", [297#1000; 0#1; 64#125]);
   (lit "ivory", [1#1; 1#1; 941#1000]);
   (lit "khaki", [941#1000; 451#500; 551#1000]);
   (lit "lavender", [451#500; 451#500; 49#50]);
   (lit "lavenderblush", [1#1; 941#1000; 961#1000]);
   (lit "lawngreen", [61#125; 247#250; 0#1]);
   (lit "lemonchiffon", [1#1; 49#50; 161#200]);
   (lit "lightblue", [17#25; 106#125; 451#500]);
   (lit "lightcoral", [941#1000; 63#125; 63#125]);
   (lit "lightcyan", [879#1000; 1#1; 1#1]);
   (lit "lightgoldenrodyellow", [49#50; 49#50; 103#125]);
   (lit "lightgray", [207#250; 207#250; 207#250]);
   (lit "lightgrey", [207#250; 207#250; 207#250]);
   (lit "lightgreen", [283#500; 467#500; 283#500]);
   (lit "lightpink", [1#1; 143#200; 379#500]);
   (lit "lightsalmon", [1#1; 629#1000; 12#25]);
   (lit "lightseagreen", [129#1000; 699#1000; 167#250]);
   (lit "lightskyblue", [531#1000; 809#1000; 49#50]);
   (lit "lightslategray", [469#1000; 107#200; 301#500]);
   (lit "lightslategrey", [469#1000; 107#200; 301#500]);
   (lit "lightsteelblue", [691#1000; 77#100; 871#1000]);
   (lit "lightyellow", [1#1; 1#1; 879#1000]);
   (lit "lime", [0#1; 1#1; 0#1]);
   (lit "limegreen", [199#1000; 161#200; 199#1000]);
   (lit "linen", [49#50; 941#1000; 451#500]);
   (lit "magenta", [1#1; 0#1; 1#1]);
   (lit "maroon", [63#125; 0#1; 0#1]);
   (lit "mediumaquamarine", [201#500; 161#200; 167#250]);
   (lit "mediumblue", [0#1; 0#1; 161#200]);
   (lit "mediumorchid", [73#100; 42#125; 207#250]);
   (lit "mediumpurple", [289#500; 441#1000; 859#1000]);
   (lit "mediumseagreen", [119#500; 703#1000; 89#200]);
   (lit "mediumslateblue", [121#250; 41#100; 467#500]);
   (lit "mediumspringgreen", [0#1; 49#50; 121#200]);
   (lit "mediumturquoise", [57#200; 41#50; 801#1000]);
   (lit "mediumvioletred", [781#1000; 43#500; 523#1000]);
   (lit "midnightblue", [51#500; 51#500; 441#1000]);
   (lit "mintcream", [961#1000; 1#1; 49#50]);
   (lit "mistyrose", [1#1; 179#200; 883#1000]);
   (lit "moccasin", [1#1; 179#200; 711#1000]);
   (lit "navajowhite", [1#1; 871#1000; 17#25]);
   (lit "navy", [0#1; 0#1; 63#125]);
   (lit "oldlace", [124#125; 961#1000; 451#500]);
   (lit "olive", [63#125; 63#125; 0#1]);
   (lit "olivedrab", [211#500; 559#1000; 141#1000]);
   (lit "orange", [1#1; 81#125; 0#1]);
   (lit "orangered", [1#1; 273#1000; 0#1]);
   (lit "orchid", [171#200; 441#1000; 21#25]);
   (lit "palegoldenrod", [467#500; 91#100; 167#250]);
   (lit "palegreen", [299#500; 123#125; 299#500]);
   (lit "paleturquoise", [86#125; 467#500; 467#500]);
   (lit "palevioletred", [859#1000; 441#1000; 289#500]);
   (lit "papayawhip", [1#1; 469#500; 209#250]);
   (lit "peachpuff", [1#1; 171#200; 727#1000]);
   (lit "peru", [161#200; 523#1000; 1#4]);
   (lit "pink", [1#1; 377#500; 797#1000]);
   (lit "plum", [867#1000; 629#1000; 867#1000]);
   (lit "powderblue", [691#1000; 879#1000; 451#500]);
   (lit "purple", [63#125; 0#1; 63#125]);
   (lit "rebeccapurple", [201#500; 203#1000; 301#500]);
   (lit "red", [1#1; 0#1; 0#1]);
   (lit "rosybrown", [369#500; 281#500; 281#500]);
   (lit "royalblue", [129#500; 207#500; 883#1000]);
   (lit "saddlebrown", [547#1000; 273#1000; 39#500]);
   (lit "salmon", [49#50; 63#125; 449#1000]);
   (lit "sandybrown", [957#1000; 129#200; 379#1000]);
   (lit "seagreen", [23#125; 547#1000; 43#125]);
   (lit "seashell", [1#1; 961#1000; 467#500]);
   (lit "sienna", [629#1000; 81#250; 9#50]);
   (lit "silver", [377#500; 377#500; 377#500]);
   (lit "skyblue", [531#1000; 809#1000; 461#500]);
   (lit "slateblue", [209#500; 71#200; 161#200]);
   (lit "slategray", [441#1000; 63#125; 283#500]);
   (lit "slategrey", [441#1000; 63#125; 283#500]);
   (lit "snow", [1#1; 49#50; 49#50]);
   (lit "springgreen", [0#1; 1#1; 1#2]);
   (lit "steelblue", [277#1000; 64#125; 707#1000]);
   (lit "tan", [103#125; 707#1000; 551#1000]);
   (lit "teal", [0#1; 63#125; 63#125]);
   (lit "thistle", [106#125; 3#4; 106#125]);
   (lit "tomato", [1#1; 391#1000; 281#1000]);
   (lit "turquoise", [127#500; 879#1000; 102#125]);
   (lit "violet", [467#500; 64#125; 467#500]);
   (lit "wheat", [961#1000; 871#1000; 703#1000]);
   (lit "white", [1#1; 1#1; 1#1]);
   (lit "whitesmoke", [961#1000; 961#1000; 961#1000]);
   (lit "yellow", [1#1; 1#1; 0#1]);
   (lit "yellowgreen", [121#200; 161#200; 199#1000])].

(** What the user passes: nothing, a number, a text, a list or tuple of
    numbers, texts and other things, something else. *)
Inductive cval := VNum (q : Q) | VText (s : str) | VBad.
Inductive cspec := SNone | SNum (q : Q) | SText (s : str) | SSeq (l : list cval) | SBad.

(** [float(c)] of an element. *)
Definition to_float (v : cval) : option Q := match v with VNum q => Some q | VText s => py_float s | VBad => None end.
Fixpoint floats (l : list cval) : option (list Q) :=
  match l with
  | [] => Some []
  | v :: r => match to_float v, floats r with Some q, Some qs => Some (q :: qs) | _, _ => None end
  end.
(** color.py 249-268. *)
Definition parse_seq (l : list cval) : res (option (list Q)) :=
  match l with
  | [v] => match to_float v with Some q => Ok (Some [q]) | None => Err TypeError end
  | [_; _; _] | [_; _; _; _] => match floats l with Some qs => Ok (Some qs) | None => Err TypeError end
  | _ => Ok None
  end.
(** color.py 243 and 245: [int(s, 16) / 255] of each piece. *)
Fixpoint hex_parts (l : list str) : res (list Q) :=
  match l with
  | [] => Ok []
  | s :: r => match py_int16 s with
              | Some z => do qs <- hex_parts r; Ok ((inject_Z z / 255)%Q :: qs)
              | None => Err ValueError
              end
  end.
Definition is_sep (c : N) : bool := (c =? 44) || (c =? 32).
(** color.py 201-268 [parse_color]. *)
Definition parse_color (c : cspec) : res (option (list Q)) :=
  match c with
  | SNone => Ok None
  | SNum q => Ok (Some [q])
  | SText [] => Ok None
  | SText (h :: t) =>
      match dget (h :: t) colors with
      | Some qs => Ok (Some qs)
      | None =>
          if h =? 35 then
            match t with
            | [a; b; c] | [a; b; c; _] =>
                match py_int16 t with
                | None => Err TypeError
                | Some _ => do qs <- hex_parts [[a; a]; [b; b]; [c; c]]; Ok (Some qs)
                end
            | [a; b; c; d; e; f] | [a; b; c; d; e; f; _; _] =>
                match py_int16 t with
                | None => Err TypeError
                | Some _ => do qs <- hex_parts [[a; b]; [c; d]; [e; f]]; Ok (Some qs)
                end
            | _ => parse_seq (map VText (split_by is_sep (h :: t)))
            end
          else parse_seq (map VText (split_by is_sep (h :: t)))
      end
  | SSeq l => parse_seq l
  | SBad => Err TypeError
  end.

(** color.py 189-199 [PDFColor.__str__]: the operator, none if there is no
    colour.  With another number of components the method returns [None] and
    [str()] raises. *)
Definition to_rgb (c : option (list Q)) : res (option rgb) :=
  match c with
  | None => Ok None
  | Some [g] => Ok (Some (Gray g))
  | Some [r; g; b] => Ok (Some (Rgb r g b))
  | Some _ => Err TypeError
  end.
Definition color_op (round3 : Q -> Q) (stroke : bool) (c : option (list Q)) : res (list gop) :=
  do o <- to_rgb c;
  Ok (match o with
      | None => []
      | Some c => [if stroke then GStrokeColor (round_rgb round3 c) else GFillColor (round_rgb round3 c)]
      end).

(** ** Specification: the documented forms *)

(** A decimal numeral: digits, and after a point more digits; a minus sign. *)
Inductive unsigned_numeral : str -> Q -> Prop :=
| num_int ds : ds <> [] -> forallb is_digit ds = true -> unsigned_numeral ds (inject_Z (Z.of_N (val10 ds)))
| num_frac a b : a <> [] \/ b <> [] -> forallb is_digit a = true -> forallb is_digit b = true ->
    unsigned_numeral (a ++ 46 :: b) (inject_Z (Z.of_N (val10 (a ++ b))) / inject_Z (10 ^ Z.of_nat (List.length b)))%Q.
Inductive numeral : str -> Q -> Prop :=
| num_pos s q : unsigned_numeral s q -> numeral s q
| num_neg s q : unsigned_numeral s q -> numeral (45 :: s) (- q)%Q.
Definition hex2 (a b : N) : Q := (inject_Z (Z.of_N (16 * a + b)) / 255)%Q.
(** Separated by commas or spaces. *)
Inductive separated : list str -> str -> Prop :=
| sep_one s : separated [s] s
| sep_more s c l t : c = 44 \/ c = 32 -> separated l t -> separated (s :: l) (s ++ c :: t).
Definition rgb_count (n : nat) : Prop := (n = 1 \/ n = 3 \/ n = 4)%nat.

Inductive documented : cspec -> list Q -> Prop :=
| doc_gray q : documented (SNum q) [q]
| doc_seq qs : rgb_count (List.length qs) -> documented (SSeq (map VNum qs)) qs
| doc_hex3 a b c x y z : hex_is a x -> hex_is b y -> hex_is c z ->
    documented (SText [35; a; b; c]) [hex2 x x; hex2 y y; hex2 z z]
| doc_hex6 a b c d e f x1 x2 y1 y2 z1 z2 : hex_is a x1 -> hex_is b x2 -> hex_is c y1 ->
    hex_is d y2 -> hex_is e z1 -> hex_is f z2 ->
    documented (SText [35; a; b; c; d; e; f]) [hex2 x1 x2; hex2 y1 y2; hex2 z1 z2]
| doc_text ss s qs : separated ss s -> Forall2 numeral ss qs -> rgb_count (List.length qs) -> documented (SText s) qs.

(** ** Proofs *)

Lemma hex_is_val c v : hex_is c v -> hex_val c = Some v.
Proof.
  unfold hex_is. assert (Hv : forall s, List.length s = 16%nat -> nth_error s (N.to_nat v) = Some c -> In v (map N.of_nat (seq 0 16))).
  { intros s Hl H. assert (N.to_nat v < 16)%nat by (rewrite <- Hl; apply nth_error_Some; congruence). apply in_map_iff. exists (N.to_nat v). split; [apply N2Nat.id|apply in_seq; lia]. }
  intros H. assert (Hin : In v (map N.of_nat (seq 0 16))) by (destruct H as [H|H]; apply Hv in H; try reflexivity; exact H). clear Hv.
  cbn [seq map] in Hin. repeat (destruct Hin as [<-|Hin]; [destruct H as [H|H]; vm_compute in H; injection H as <-; reflexivity|]). destruct Hin.
Qed.

Lemma hex_val_lt c v : hex_val c = Some v -> v < 16.
Proof.
  unfold hex_val, is_digit. destruct ((48 <=? c) && (c <=? 57)) eqn:E1; [intros [= <-]; lia|].
  destruct ((97 <=? c) && (c <=? 102)) eqn:E2; [intros [= <-]; lia|].
  destruct ((65 <=? c) && (c <=? 70)) eqn:E3; [intros [= <-]; lia|discriminate].
Qed.
Lemma hex_val_char c v : hex_val c = Some v -> is_space c = false /\ c <> 45 /\ c <> 43 /\ c <> 120 /\ c <> 88 /\ c <> 95 /\ is_sep c = false.
Proof.
  unfold hex_val, is_digit, is_space, is_sep. destruct ((48 <=? c) && (c <=? 57)) eqn:E1; [lia|].
  destruct ((97 <=? c) && (c <=? 102)) eqn:E2; [lia|]. destruct ((65 <=? c) && (c <=? 70)) eqn:E3; [lia|discriminate].
Qed.
Lemma strip_id s : forallb (fun c => negb (is_space c)) s = true -> py_strip s = s.
Proof. intros H. pose proof (strip_pad [] s [] eq_refl eq_refl H) as E. rewrite app_nil_r in E. exact E. Qed.
Lemma hex_us_ok s : forallb is_hex s = true -> s <> [] -> forall p acc, exists n, hex_us p s acc = Some n.
Proof.
  induction s as [|c s IH]; [congruence|]. cbn [forallb]. intros H _ p acc. apply andb_true_iff in H as [H1 H2].
  unfold is_hex in H1. cbn [hex_us]. destruct (hex_val c) as [v|]; [|discriminate].
  destruct s as [|d s]; [cbn; eauto|]. apply IH; [exact H2|discriminate].
Qed.
Lemma sign_hex s : forallb is_hex s = true -> sign (py_strip s) = (false, s).
Proof.
  intros H. assert (Hsp : forallb (fun c => negb (is_space c)) s = true).
  { rewrite forallb_forall in *. intros c Hc. specialize (H c Hc). unfold is_hex in H. destruct (hex_val c) eqn:E; [|discriminate].
    apply hex_val_char in E as [E _]. now rewrite E. }
  rewrite strip_id by exact Hsp. destruct s as [|c s]; [reflexivity|]. cbn [forallb] in H. apply andb_true_iff in H as [H _].
  unfold is_hex in H. destruct (hex_val c) eqn:E; [|discriminate]. apply hex_val_char in E as (_ & E1 & E2 & _).
  cbn [sign]. apply N.eqb_neq in E1, E2. now rewrite E1, E2.
Qed.
Lemma int16_hex s : forallb is_hex s = true -> s <> [] -> py_int16 s = match hex_us false s 0 with Some n => Some (Z.of_N n) | None => None end.
Proof.
  intros H Hn. unfold py_int16. rewrite (sign_hex s H). destruct s as [|z [|x r]]; [congruence|reflexivity|].
  cbn [forallb] in H. apply andb_true_iff in H as [_ H]. apply andb_true_iff in H as [H _].
  unfold is_hex in H. destruct (hex_val x) eqn:E; [|discriminate]. apply hex_val_char in E as (_ & _ & _ & E1 & E2 & _).
  apply N.eqb_neq in E1, E2. rewrite E1, E2, andb_false_r. reflexivity.
Qed.
Lemma is_hex_val c v : hex_val c = Some v -> is_hex c = true.
Proof. unfold is_hex. now intros ->. Qed.
Lemma int16_pair a b x y : hex_val a = Some x -> hex_val b = Some y -> py_int16 [a; b] = Some (Z.of_N (16 * x + y)).
Proof.
  intros Ha Hb. rewrite int16_hex; [|cbn [forallb]; now rewrite (is_hex_val _ _ Ha), (is_hex_val _ _ Hb)|discriminate].
  cbn [hex_us]. rewrite Ha, Hb. do 2 f_equal. lia.
Qed.
Lemma hex2_unit x y : x < 16 -> y < 16 -> (0 <= hex2 x y <= 1)%Q.
Proof.
  intros Hx Hy. unfold hex2. split.
  - apply Qle_shift_div_l; [reflexivity|]. rewrite Qmult_0_l. change 0%Q with (inject_Z 0). rewrite <- Zle_Qle. lia.
  - apply Qle_shift_div_r; [reflexivity|]. rewrite Qmult_1_l. change 255%Q with (inject_Z 255). rewrite <- Zle_Qle. lia.
Qed.

(** No colour has a name that begins with #. *)
Lemma hash_no_name t : dget (35 :: t) colors = None.
Proof.
  destruct (dget (35 :: t) colors) eqn:E; [|reflexivity]. apply dget_in in E.
  assert (H : forallb (fun kv => match fst kv with c :: _ => negb (c =? 35) | [] => true end) colors = true) by (vm_compute; reflexivity).
  rewrite forallb_forall in H. apply H in E. discriminate.
Qed.
Definition unit_b (q : Q) : bool := Qle_bool 0 q && Qle_bool q 1.
Lemma names_unit s qs : dget s colors = Some qs -> List.length qs = 3%nat /\ Forall (fun q => 0 <= q <= 1)%Q qs.
Proof.
  intros E. apply dget_in in E.
  assert (H : forallb (fun kv => (List.length (snd kv) =? 3)%nat && forallb unit_b (snd kv)) colors = true) by (vm_compute; reflexivity).
  rewrite forallb_forall in H. apply H in E. cbn [snd] in E. apply andb_true_iff in E as [E1 E2]. split; [now apply Nat.eqb_eq|].
  apply Forall_forall. intros q Hq. rewrite forallb_forall in E2. apply E2 in Hq. apply andb_true_iff in Hq as [H1 H2].
  now rewrite Qle_bool_iff in H1, H2.
Qed.

(** Numerals. *)
Lemma digit_us c : is_digit c = true -> is_digit_us c = true.
Proof. unfold is_digit_us. now intros ->. Qed.
Lemma opt_digits_ok ds : forallb is_digit ds = true -> opt_digits ds = Some ds.
Proof. destruct ds; [reflexivity|]. intros H. apply digits_us_digits; [exact H|discriminate]. Qed.
Lemma decimal_int ds : (decimal ds 0 0 == inject_Z (Z.of_N (val10 ds)))%Q.
Proof. unfold decimal. cbn. ring. Qed.
Lemma decimal_frac ds k : (decimal ds k 0 == inject_Z (Z.of_N (val10 ds)) / inject_Z (10 ^ Z.of_nat k))%Q.
Proof.
  unfold decimal. replace (0 - Z.of_nat k)%Z with (- Z.of_nat k)%Z by lia. rewrite Qpower_opp.
  unfold Qdiv. apply Qmult_comp; [reflexivity|]. apply Qinv_comp.
  change 10%Q with (inject_Z 10). rewrite <- Zpower_Qpower; [reflexivity|lia].
Qed.
(** The part of [py_float] after the sign. *)
Definition unsigned (u : str) : option Q :=
  let '(a, rest) := span is_digit_us u in
  let '(b, tail) := match rest with
                    | c :: r => if c =? 46 then span is_digit_us r else ([], rest)
                    | [] => ([], [])
                    end in
  match opt_digits a, opt_digits b, exponent tail with
  | Some x, Some y, Some e => match x ++ y with [] => None | _ => Some (decimal (x ++ y) (List.length y) e) end
  | _, _, _ => None
  end.
Lemma py_float_sign s neg u : sign (py_strip s) = (neg, u) ->
  py_float s = match unsigned u with Some q => Some (if neg then - q else q)%Q | None => None end.
Proof.
  intros E. unfold py_float, unsigned. rewrite E. destruct (span is_digit_us u) as [a rest].
  destruct (match rest with c :: r => if c =? 46 then span is_digit_us r else ([], rest) | [] => ([], []) end) as [b tail].
  destruct (opt_digits a) as [x|]; [|reflexivity]. destruct (opt_digits b) as [y|]; [|reflexivity]. destruct (exponent tail); [|reflexivity].
  destruct (x ++ y); reflexivity.
Qed.
Lemma unsigned_chars s q : unsigned_numeral s q -> forallb (fun c => is_digit c || (c =? 46)) s = true /\ s <> [].
Proof.
  intros [ds H1 H2|a b H1 H2 H3].
  - split; [|exact H1]. rewrite forallb_forall in *. intros c Hc. now rewrite (H2 c Hc).
  - split; [|destruct a; discriminate]. rewrite forallb_app. cbn [forallb]. rewrite forallb_forall in H2, H3.
    apply andb_true_iff. split; [apply forallb_forall; intros c Hc; now rewrite (H2 c Hc)|].
    apply andb_true_iff. split; [reflexivity|]. apply forallb_forall; intros c Hc; now rewrite (H3 c Hc).
Qed.
Lemma forallb_us ds : forallb is_digit ds = true -> forallb is_digit_us ds = true.
Proof. rewrite !forallb_forall. intros H c Hc. apply digit_us, H, Hc. Qed.
Lemma span_full (p : N -> bool) l : forallb p l = true -> span p l = (l, []).
Proof. intros H. pose proof (span_app_all p l [] H I) as E. now rewrite app_nil_r in E. Qed.
Lemma unsigned_ok s q : unsigned_numeral s q -> exists q', unsigned s = Some q' /\ (q' == q)%Q.
Proof.
  intros [ds H1 H2|a b H1 H2 H3]; unfold unsigned.
  - rewrite (span_full _ _ (forallb_us _ H2)).
    rewrite (opt_digits_ok _ H2). cbn [opt_digits exponent]. rewrite app_nil_r. destruct ds as [|d ds]; [congruence|].
    cbn [List.length]. eexists. split; [reflexivity|]. apply decimal_int.
  - rewrite span_app_all by (apply forallb_us, H2 || reflexivity). change (46 =? 46) with true. cbv iota.
    rewrite (span_full _ _ (forallb_us _ H3)).
    rewrite (opt_digits_ok _ H2), (opt_digits_ok _ H3). cbn [exponent].
    destruct (a ++ b) as [|d r] eqn:E; [apply app_eq_nil in E as [-> ->]; destruct H1; congruence|].
    eexists. split; [reflexivity|]. apply decimal_frac.
Qed.
Lemma numeral_chars s q : numeral s q -> forallb (fun c => is_digit c || (c =? 46) || (c =? 45)) s = true /\ s <> [].
Proof.
  intros [t r H|t r H]; apply unsigned_chars in H as [H1 H2].
  - split; [|exact H2]. rewrite forallb_forall in *. intros c Hc. now rewrite (H1 c Hc).
  - split; [|discriminate]. cbn [forallb]. apply andb_true_iff. split; [apply orb_true_r|].
    rewrite forallb_forall in *. intros c Hc. now rewrite (H1 c Hc).
Qed.
Lemma float_numeral s q : numeral s q -> exists q', py_float s = Some q' /\ (q' == q)%Q.
Proof.
  intros H. assert (Hs : py_strip s = s).
  { apply numeral_chars in H as [H _]. apply strip_id. rewrite forallb_forall in *. intros c Hc. specialize (H c Hc).
    unfold is_digit, is_space in *. lia. }
  destruct H as [t r H|t r H].
  - assert (E : sign (py_strip t) = (false, t)).
    { rewrite Hs. apply unsigned_chars in H as [H Hn]. destruct t as [|c t]; [congruence|]. cbn [forallb] in H. apply andb_true_iff in H as [H _].
      cbn [sign]. unfold is_digit in H. assert (E1 : (c =? 45) = false) by lia. assert (E2 : (c =? 43) = false) by lia. now rewrite E1, E2. }
    rewrite (py_float_sign _ _ _ E). destruct (unsigned_ok _ _ H) as (q' & -> & Hq). eauto.
  - assert (E : sign (py_strip (45 :: t)) = (true, t)) by (rewrite Hs; reflexivity).
    rewrite (py_float_sign _ _ _ E). destruct (unsigned_ok _ _ H) as (q' & -> & Hq). eexists. split; [reflexivity|]. now rewrite Hq.
Qed.

Lemma is_sep_iff c : is_sep c = true <-> c = 44 \/ c = 32.
Proof. unfold is_sep. lia. Qed.
Lemma separated_split ss s : separated ss s -> Forall (fun t => forallb (fun c => negb (is_sep c)) t = true) ss -> split_by is_sep s = ss.
Proof.
  induction 1 as [s|s c l t Hc H IH]; intros HF; apply Forall_cons_iff in HF as [H1 H2].
  - now apply split_by_none.
  - apply is_sep_iff in Hc. rewrite split_by_app by assumption. f_equal. now apply IH.
Qed.
Lemma Forall2_len {A B} (P : A -> B -> Prop) l m : Forall2 P l m -> List.length l = List.length m.
Proof. induction 1; cbn; congruence. Qed.
Lemma floats_num qs : floats (map VNum qs) = Some qs.
Proof. induction qs as [|q qs IH]; [reflexivity|]. cbn [map floats to_float]. now rewrite IH. Qed.
Lemma floats_text ss qs : Forall2 numeral ss qs -> exists qs', floats (map VText ss) = Some qs' /\ Forall2 Qeq qs' qs.
Proof.
  induction 1 as [|s q ss qs H _ (qs' & E & IH)]; [exists []; split; [reflexivity|constructor]|].
  destruct (float_numeral _ _ H) as (q' & Eq & Hq). cbn [map floats to_float]. rewrite Eq, E. eexists. split; [reflexivity|]. now constructor.
Qed.
Lemma parse_seq_ok vs qs : floats vs = Some qs -> rgb_count (List.length vs) -> parse_seq vs = Ok (Some qs).
Proof.
  intros E [H|[H|H]].
  - destruct vs as [|v [|? ?]]; try discriminate. cbn [floats] in E. cbn [parse_seq]. destruct (to_float v); [|discriminate]. now injection E as <-.
  - destruct vs as [|? [|? [|? [|? ?]]]]; try discriminate. cbn [parse_seq]. now rewrite E.
  - destruct vs as [|? [|? [|? [|? [|? ?]]]]]; try discriminate. cbn [parse_seq]. now rewrite E.
Qed.

(** A separated list of numerals is no name. *)
Lemma number_no_name c t : is_digit c || (c =? 46) || (c =? 45) = true -> dget (c :: t) colors = None.
Proof.
  intros Hc. destruct (dget (c :: t) colors) eqn:E; [|reflexivity]. apply dget_in in E.
  assert (H : forallb (fun kv => match fst kv with c :: _ => negb (is_digit c || (c =? 46) || (c =? 45)) | [] => true end) colors = true) by (vm_compute; reflexivity).
  rewrite forallb_forall in H. apply H in E. cbn [fst] in E. now rewrite Hc in E.
Qed.
Theorem parse_documented c qs : documented c qs -> exists qs', parse_color c = Ok (Some qs') /\ Forall2 Qeq qs' qs.
Proof.
  assert (R : forall l, Forall2 Qeq l l) by (induction l; constructor; [reflexivity|assumption]).
  intros [q|l H|a b c0 x y z Ha Hb Hc|a b c0 d e f x1 x2 y1 y2 z1 z2 Ha Hb Hc Hd He Hf|ss s l Hs Hn Hl].
  - eexists. split; [reflexivity|apply R].
  - cbn [parse_color]. rewrite (parse_seq_ok _ l); [eauto|apply floats_num|now rewrite map_length].
  - repeat match goal with H : hex_is _ _ |- _ => apply hex_is_val in H end. cbn [parse_color]. rewrite hash_no_name. change (35 =? 35) with true. cbv iota.
    rewrite int16_hex; [|cbn [forallb]; now rewrite (is_hex_val _ _ Ha), (is_hex_val _ _ Hb), (is_hex_val _ _ Hc)|discriminate].
    cbn [hex_us]. rewrite Ha, Hb, Hc. cbn [hex_parts]. rewrite (int16_pair _ _ _ _ Ha Ha), (int16_pair _ _ _ _ Hb Hb), (int16_pair _ _ _ _ Hc Hc).
    cbn [bind]. eexists. split; [reflexivity|apply R].
  - repeat match goal with H : hex_is _ _ |- _ => apply hex_is_val in H end. cbn [parse_color]. rewrite hash_no_name. change (35 =? 35) with true. cbv iota.
    rewrite int16_hex; [|cbn [forallb]; now rewrite (is_hex_val _ _ Ha), (is_hex_val _ _ Hb), (is_hex_val _ _ Hc), (is_hex_val _ _ Hd), (is_hex_val _ _ He), (is_hex_val _ _ Hf)|discriminate].
    cbn [hex_us]. rewrite Ha, Hb, Hc, Hd, He, Hf. cbn [hex_parts]. rewrite (int16_pair _ _ _ _ Ha Hb), (int16_pair _ _ _ _ Hc Hd), (int16_pair _ _ _ _ He Hf).
    cbn [bind]. eexists. split; [reflexivity|apply R].
  - assert (Hsp : split_by is_sep s = ss).
    { apply separated_split; [exact Hs|]. clear - Hn. induction Hn as [|t q ss qs H _ IH]; constructor; [|exact IH].
      apply numeral_chars in H as [H _]. rewrite forallb_forall in *. intros c Hc. specialize (H c Hc). unfold is_digit, is_sep in *. lia. }
    assert (Hh : exists h t, s = h :: t /\ is_digit h || (h =? 46) || (h =? 45) = true).
    { destruct Hn as [|t q ss2 qs2 H _]; [destruct Hl as [K|[K|K]]; discriminate|]. apply numeral_chars in H as [H Hne].
      destruct t as [|h t]; [congruence|]. cbn [forallb] in H. apply andb_true_iff in H as [H _].
      inversion Hs; subst; cbn [app]; eauto. }
    destruct Hh as (h & t & -> & Hh). cbn [parse_color]. rewrite (number_no_name h t Hh).
    assert (E35 : (h =? 35) = false) by (unfold is_digit in Hh; lia). rewrite E35, Hsp.
    destruct (floats_text _ _ Hn) as (qs' & E & Hq). exists qs'. split; [|exact Hq].
    apply parse_seq_ok; [exact E|]. rewrite map_length, (Forall2_len _ _ _ Hn). exact Hl.
Qed.

(** What is accepted. *)
Lemma split_separated s : separated (split_by is_sep s) s.
Proof.
  induction s as [|c s IH]; [constructor|]. cbn [split_by]. destruct (is_sep c) eqn:E.
  - apply is_sep_iff in E. exact (sep_more [] c _ s E IH).
  - destruct (split_by is_sep s) as [|x l] eqn:El; [exfalso; exact (split_by_nonempty _ _ El)|].
    inversion IH; subst; [constructor|]. apply (sep_more (c :: x)); assumption.
Qed.
Lemma floats_inv vs qs : floats vs = Some qs -> Forall2 (fun v q => to_float v = Some q) vs qs.
Proof.
  revert qs. induction vs as [|v vs IH]; cbn [floats]; intros qs E; [injection E as <-; constructor|].
  destruct (to_float v) as [q|] eqn:Ev; [|discriminate]. destruct (floats vs) as [l|]; [|discriminate]. injection E as <-.
  constructor; [exact Ev|]. now apply IH.
Qed.
Lemma parse_seq_inv vs r : parse_seq vs = r ->
  match r with
  | Ok (Some qs) => Forall2 (fun v q => to_float v = Some q) vs qs /\ rgb_count (List.length vs)
  | Ok None => ~ rgb_count (List.length vs)
  | Err e => e = TypeError /\ rgb_count (List.length vs) /\ exists v, In v vs /\ to_float v = None
  end.
Proof.
  assert (F : forall l, floats l = None -> exists v, In v l /\ to_float v = None).
  { induction l as [|v l IH]; cbn [floats]; [discriminate|]. destruct (to_float v) eqn:E; [|exists v; split; [now left|exact E]].
    destruct (floats l); [discriminate|]. intros _. destruct (IH eq_refl) as (u & H1 & H2). exists u. split; [now right|exact H2]. }
  unfold rgb_count. intros <-. destruct vs as [|a [|b [|c [|d [|e vs]]]]]; cbn [parse_seq List.length]; try lia.
  - destruct (to_float a) as [q|] eqn:E.
    + split; [|lia]. constructor; [exact E|constructor].
    + split; [reflexivity|]. split; [lia|]. exists a. split; [now left|exact E].
  - destruct (floats [a; b; c]) as [qs|] eqn:E; [split; [exact (floats_inv _ _ E)|lia]|]. split; [reflexivity|]. split; [lia|]. now apply F.
  - destruct (floats [a; b; c; d]) as [qs|] eqn:E; [split; [exact (floats_inv _ _ E)|lia]|]. split; [reflexivity|]. split; [lia|]. now apply F.
Qed.
(** A text of the form of a hexadecimal colour: after # come 3, 4, 6 or 8
    characters that [int(text, 16)] accepts. *)
Definition hex_form (s : str) : Prop :=
  exists t, s = 35 :: t /\ In (List.length t) [3; 4; 6; 8]%nat /\ py_int16 t <> None.
Lemma text_accepted s qs : parse_color (SText s) = Ok (Some qs) ->
  dget s colors = Some qs \/ hex_form s \/
  (exists ss, separated ss s /\ rgb_count (List.length ss) /\ Forall2 (fun t q => py_float t = Some q) ss qs).
Proof.
  destruct s as [|h t]; [discriminate|]. intros E.
  assert (Hseq : parse_seq (map VText (split_by is_sep (h :: t))) = Ok (Some qs) ->
    exists ss, separated ss (h :: t) /\ rgb_count (List.length ss) /\ Forall2 (fun t q => py_float t = Some q) ss qs).
  { intros H. apply parse_seq_inv in H as [H1 H2]. rewrite map_length in H2. exists (split_by is_sep (h :: t)).
    split; [apply split_separated|]. split; [exact H2|]. revert H1. clear. generalize (split_by is_sep (h :: t)). intros l. revert qs.
    induction l as [|x l IH]; cbn [map]; intros qs H; inversion H; subst; constructor; [assumption|now apply IH]. }
  cbn [parse_color] in E. destruct (dget (h :: t) colors) as [q|] eqn:Ed; [left; congruence|right].
  destruct (h =? 35) eqn:Eh; [apply N.eqb_eq in Eh; subst h|right; now apply Hseq].
  assert (Hx : In (List.length t) [3; 4; 6; 8]%nat \/ parse_seq (map VText (split_by is_sep (35 :: t))) = Ok (Some qs)).
  { destruct t as [|? [|? [|? [|? [|? [|? [|? [|? [|? ?]]]]]]]]]; cbn [List.length In]; auto 6. }
  destruct Hx as [Hx|Hx]; [|right; now apply Hseq]. left. exists t. split; [reflexivity|]. split; [exact Hx|].
  intros En. destruct t as [|? [|? [|? [|? [|? [|? [|? [|? [|? ?]]]]]]]]]; cbn [List.length In] in Hx;
    try (destruct Hx as [K|[K|[K|[K|[]]]]]; discriminate); rewrite En in E; discriminate.
Qed.
Lemma text_rejected s e : parse_color (SText s) = Err e -> dget s colors = None /\
  (e = TypeError \/ (e = ValueError /\ hex_form s)).
Proof.
  destruct s as [|h t]; [discriminate|]. intros E. cbn [parse_color] in E. destruct (dget (h :: t) colors) as [q|] eqn:Ed; [discriminate|].
  split; [reflexivity|].
  assert (Hseq : parse_seq (map VText (split_by is_sep (h :: t))) = Err e -> e = TypeError).
  { intros H. now apply parse_seq_inv in H as [H _]. }
  assert (Hh : forall l, hex_parts l = Err e -> e = ValueError).
  { induction l as [|x l IH]; cbn [hex_parts]; [discriminate|]. destruct (py_int16 x); [|congruence].
    destruct (hex_parts l); cbn [bind]; [discriminate|]. intros H. apply IH. congruence. }
  destruct (h =? 35) eqn:Eh; [apply N.eqb_eq in Eh; subst h|left; now apply Hseq].
  destruct t as [|? [|? [|? [|? [|? [|? [|? [|? [|? ?]]]]]]]]]; try (left; now apply Hseq);
    (destruct (py_int16 _) eqn:Ei in E; [|left; congruence]);
    (destruct (hex_parts _) eqn:Ep in E; cbn [bind] in E; [discriminate|]);
    (right; split; [apply (Hh _ Ep) || (injection E as <-; apply (Hh _ Ep))|]);
    (eexists; split; [reflexivity|]; split; [cbn; tauto|congruence]).
Qed.
