(** The streams of pages as text: how the operators of Gfx.v are written, and
    a reader of the text (ISO 32000-1, 7.2, 7.3 and 7.8.2). *)
From Coq Require Import String QArith Qabs Qpower Lia Lqa.
From Verif Require Import Py PyStr PdfSyntax ParserProofs StreamProofs Fonts Gfx PListText.
Open Scope N_scope.
Open Scope list_scope.

(** ** Specification: the reader *)

(** 7.3.3: the value of a number. *)
Definition dval (s : bytes) : N := fold_left (fun a c => 10 * a + (c - 48)) s 0.
Definition digit (c : N) : bool := (48 <=? c) && (c <=? 57).
Fixpoint digits_of (s : bytes) : bytes * bytes :=
  match s with
  | c :: r => if digit c then let '(a, b) := digits_of r in (c :: a, b) else ([], s)
  | [] => ([], [])
  end.
Definition unsigned_value (u : bytes) : option Q :=
  let '(a, r) := digits_of u in
  match a, r with
  | [], [] => None
  | _, [] => Some (inject_Z (Z.of_N (dval a)))
  | _, 46 :: f =>
      let '(b, e) := digits_of f in
      match a ++ b, e with
      | [], _ | _, _ :: _ => None
      | ds, [] => Some (inject_Z (Z.of_N (dval ds)) / inject_Z (10 ^ Z.of_nat (List.length b)))%Q
      end
  | _, _ => None
  end.
Definition number_value (t : bytes) : option Q :=
  match t with
  | 45 :: u => match unsigned_value u with Some q => Some (- q)%Q | None => None end
  | 43 :: u => unsigned_value u
  | _ => unsigned_value t
  end.

Inductive token := TNum (q : Q) | TName (n : bytes) | TStr (s : bytes) | TOpen | TClose | TWord (w : bytes).
Fixpoint regulars (s : bytes) : bytes * bytes :=
  match s with
  | c :: r => if is_regular c then let '(a, b) := regulars r in (c :: a, b) else ([], s)
  | [] => ([], [])
  end.
(** The first token, after white space. *)
Definition next_token (s : bytes) : option (token * bytes) :=
  match skip_ws false s with
  | [] => None
  | c :: r =>
      if c =? 47 then let '(n, r') := regulars r in Some (TName n, r')
      else if c =? 40 then match read_lit 0 r with Some (l, r') => Some (TStr l, r') | None => None end
      else if c =? 91 then Some (TOpen, r)
      else if c =? 93 then Some (TClose, r)
      else if is_regular c then
        let '(w, r') := regulars (c :: r) in
        Some (match number_value w with Some q => TNum q | None => TWord w end, r')
      else None
  end.
(** The tokens of a text; [next_token] decides each step. *)
Inductive lexed : bytes -> list token -> Prop :=
| lexed_end s : skip_ws false s = [] -> lexed s []
| lexed_next s t r l : next_token s = Some (t, r) -> lexed r l -> lexed s (t :: l).

Fixpoint numbers (l : list token) : option (list Q) :=
  match l with
  | [] => Some []
  | TNum q :: r => match numbers r with Some qs => Some (q :: qs) | None => None end
  | _ => None
  end.
Definition word (w : bytes) (s : string) : bool := str_eqb w (lit s).
(** The operators (annex A of the standard), with their operands in order. *)
Definition operator (w : bytes) (args : list token) : option gop :=
  match args with
  | [] =>
      if word w "q" then Some GSave else if word w "Q" then Some GRestore
      else if word w "BT" then Some GBegin else if word w "ET" then Some GEnd
      else if word w "f" || word w "F" then Some GFill else if word w "S" then Some GStroke else None
  | [TNum a] =>
      if word w "g" then Some (GFillColor (Gray a)) else if word w "G" then Some (GStrokeColor (Gray a))
      else if word w "w" then Some (GWidth a)
      else if word w "J" then if Qeq_bool (inject_Z (Qnum a / Zpos (Qden a))) a then Some (GCap (Qnum a / Zpos (Qden a))) else None
      else if word w "Ts" then Some (GRise a) else if word w "Tw" then Some (GSpacing a) else None
  | [TNum a; TNum b] =>
      if word w "m" then Some (GMove a b) else if word w "l" then Some (GLine a b)
      else if word w "Td" then Some (GTd a b) else None
  | [TNum a; TNum b; TNum c] =>
      if word w "rg" then Some (GFillColor (Rgb a b c)) else if word w "RG" then Some (GStrokeColor (Rgb a b c)) else None
  | [TNum a; TNum b; TNum c; TNum d] => if word w "re" then Some (GRect a b c d) else None
  | [TNum a; TNum b; TNum c; TNum d; TNum e; TNum f] =>
      if word w "cm" then Some (GConcat a b c d e f)
      else if word w "Tm" && Qeq_bool a 1 && Qeq_bool b 0 && Qeq_bool c 0 && Qeq_bool d 1 then Some (GTm e f) else None
  | [TName n] => if word w "Do" then Some (GDo n) else None
  | [TName n; TNum a] => if word w "Tf" then Some (GFont n a) else None
  | [TStr s] => if word w "Tj" then Some (GShow s) else None
  | [TOpen; TClose; TNum p] => if word w "d" then Some (GDash [] p) else None
  | [TOpen; TNum a; TNum b; TClose; TNum p] => if word w "d" then Some (GDash [a; b] p) else None
  | _ => None
  end.
(** Operands come before their operator; nothing may be left. *)
Fixpoint operators (args l : list token) : option (list gop) :=
  match l with
  | [] => match args with [] => Some [] | _ => None end
  | TWord w :: r => match operator w args, operators [] r with Some o, Some os => Some (o :: os) | _, _ => None end
  | t :: r => operators (args ++ [t]) r
  end.
(** What a reader finds in a text. *)
Definition reads_as (s : bytes) (ops : list gop) : Prop := exists l, lexed s l /\ operators [] l = Some ops.

(** The same operator, with numbers that are equal. *)
Definition rgb_same (a b : rgb) : Prop :=
  match a, b with
  | Gray x, Gray y => (x == y)%Q
  | Rgb x y z, Rgb x' y' z' => (x == x')%Q /\ (y == y')%Q /\ (z == z')%Q
  | _, _ => False
  end.
Definition op_same (a b : gop) : Prop :=
  match a, b with
  | GSave, GSave | GRestore, GRestore | GFill, GFill | GStroke, GStroke | GBegin, GBegin | GEnd, GEnd => True
  | GConcat a b c d e f, GConcat a' b' c' d' e' f' =>
      (a == a')%Q /\ (b == b')%Q /\ (c == c')%Q /\ (d == d')%Q /\ (e == e')%Q /\ (f == f')%Q
  | GFillColor c, GFillColor c' | GStrokeColor c, GStrokeColor c' => rgb_same c c'
  | GWidth w, GWidth w' => (w == w')%Q
  | GCap n, GCap n' => n = n'
  | GDash l p, GDash l' p' => Forall2 Qeq l l' /\ (p == p')%Q
  | GRect a b c d, GRect a' b' c' d' => (a == a')%Q /\ (b == b')%Q /\ (c == c')%Q /\ (d == d')%Q
  | GMove a b, GMove a' b' | GLine a b, GLine a' b' | GTm a b, GTm a' b' | GTd a b, GTd a' b' => (a == a')%Q /\ (b == b')%Q
  | GFont n s, GFont n' s' => n = n' /\ (s == s')%Q
  | GRise a, GRise a' | GSpacing a, GSpacing a' => (a == a')%Q
  | GShow s, GShow s' => s = s'
  | GDo n, GDo n' => n = n'
  | _, _ => False
  end.

(** ** Model: how Python prints numbers *)

Definition int_str (z : Z) : str := dec_Z z.
Definition two_digits (s : str) : str := match s with [c] => [48; c] | _ => s end.
(** [str(x)] of a float with the shortest digits [D] and exponent [e], value
    [D * 10 ^ e] (CPython: [float_repr_style] short, repr format). *)
Definition float_str (neg : bool) (D : N) (e : Z) : str :=
  let ds := dec D in
  let n := Z.of_nat (List.length ds) in
  let point := (n + e)%Z in
  (if neg then [45] else []) ++
  (if (-4 <? point)%Z && (point <=? 16)%Z then
     if (point <=? 0)%Z then [48; 46] ++ repeat 48 (Z.to_nat (- point)) ++ ds
     else if (n <=? point)%Z then ds ++ repeat 48 (Z.to_nat (point - n)) ++ [46; 48]
     else firstn (Z.to_nat point) ds ++ 46 :: skipn (Z.to_nat point) ds
   else
     (match ds with c :: [] => [c] | c :: r => c :: 46 :: r | [] => [] end) ++
     101 :: (if (point - 1 <? 0)%Z then 45 else 43) :: two_digits (dec (Z.abs_N (point - 1)))).
Definition float_value (neg : bool) (D : N) (e : Z) : Q :=
  let v := (inject_Z (Z.of_N D) * inject_Z 10 ^ e)%Q in if neg then (- v)%Q else v.
(** A number is an int or a float; [0.0] has the digits 0 and exponent 0. *)
Inductive py_number (q : Q) : str -> Prop :=
| py_int_number z : (q == inject_Z z)%Q -> py_number q (int_str z)
| py_float_number neg D e : (D = 0 -> e = 0%Z) -> (q == float_value neg D e)%Q -> py_number q (float_str neg D e).

(** ** Model: how operators are written *)

Notation "a +++ b" := (a ++ 32 :: b) (at level 60, right associativity).
Section Lists.
(** The texts of lists. *)
Variable lists : str -> Prop.
Inductive writes : gop -> str -> Prop :=
(** utils.py 303-304, 358; page.py 168. *)
| W_save : writes GSave (lit " q")
| W_restore : writes GRestore (lit " Q")
(** utils.py 358. *)
| W_concat_at x y sx sy : py_number x sx -> py_number y sy -> writes (GConcat 1 0 0 1 x y) (lit " 1 0 0 1" +++ sx +++ sy +++ lit "cm")
(** page.py 168-172. *)
| W_concat_image w h x y sw sh sx sy : py_number w sw -> py_number h sh -> py_number x sx -> py_number y sy ->
    writes (GConcat w 0 0 h x y) ([] +++ sw +++ lit "0 0" +++ sh +++ sx +++ sy +++ lit "cm")
(** color.py 189-199, with the space of text.py 60, 1000 and utils.py 264. *)
| W_fill_gray a sa : py_number a sa -> writes (GFillColor (Gray a)) ([] +++ sa +++ lit "g")
| W_fill_rgb a b c sa sb sc : py_number a sa -> py_number b sb -> py_number c sc ->
    writes (GFillColor (Rgb a b c)) ([] +++ sa +++ sb +++ sc +++ lit "rg")
(** color.py 189-199, with the space of text.py 1015 and utils.py 274. *)
| W_stroke_gray a sa : py_number a sa -> writes (GStrokeColor (Gray a)) ([] +++ sa +++ lit "G")
| W_stroke_rgb a b c sa sb sc : py_number a sa -> py_number b sb -> py_number c sc ->
    writes (GStrokeColor (Rgb a b c)) ([] +++ sa +++ sb +++ sc +++ lit "RG")
(** utils.py 278, text.py 1019. *)
| W_width w sw : py_number w sw -> writes (GWidth w) ([] +++ sw +++ lit "w")
(** utils.py 281-287. *)
| W_cap0 : writes (GCap 0) (lit " 0 J")
| W_cap1 : writes (GCap 1) (lit " 1 J")
| W_solid : writes (GDash [] 0) (lit " [] 0 d")
| W_dashed a b sa sb : py_number a sa -> py_number b sb -> writes (GDash [a; b] 0) (lit " [" ++ sa +++ sb ++ lit "] 0 d")
| W_dotted b p sb sp : py_number b sb -> py_number p sp -> writes (GDash [0%Q; b] p) (lit " [0" +++ sb ++ lit "]" +++ sp +++ lit "d")
(** utils.py 266, text.py 1002. *)
| W_rect x y w h sx sy sw sh : py_number x sx -> py_number y sy -> py_number w sw -> py_number h sh ->
    writes (GRect x y w h) ([] +++ sx +++ sy +++ sw +++ sh +++ lit "re")
| W_fill : writes GFill (lit " F")
(** utils.py 298, text.py 1021. *)
| W_move x y sx sy : py_number x sx -> py_number y sy -> writes (GMove x y) ([] +++ sx +++ sy +++ lit "m")
| W_line x y sx sy : py_number x sx -> py_number y sy -> writes (GLine x y) ([] +++ sx +++ sy +++ lit "l")
| W_stroke : writes GStroke (lit " S")
(** utils.py 360. *)
| W_begin : writes GBegin (lit " BT")
| W_end : writes GEnd (lit " ET")
| W_tm x y sx sy : py_number x sx -> py_number y sy -> writes (GTm x y) (lit " 1 0 0 1" +++ sx +++ sy +++ lit "Tm")
(** text.py 58, 62, 957. *)
| W_font n a sa : py_number a sa -> writes (GFont n a) (lit " /" ++ n +++ sa +++ lit "Tf")
| W_rise a sa : py_number a sa -> writes (GRise a) ([] +++ sa +++ lit "Ts")
| W_spacing a sa : py_number a sa -> writes (GSpacing a) ([] +++ sa +++ lit "Tw")
(** text.py 866, 874, 881, 891: the height with a minus before it (heights are
    sums that begin with the int 0, so they are not -0.0); 866: the indent
    after the text of a list. *)
| W_td x y h sx sh : py_number x sx -> py_number h sh -> ((h == 0)%Q -> hd 0 sh <> 45) -> (y == - h)%Q -> writes (GTd x y) ([] +++ sx +++ 45 :: sh +++ lit "Td")
| W_td_list x sx : py_number x sx -> writes (GTd x 0) ([] +++ sx +++ lit "0 Td")
(** text.py 975, 977: the codes of the text, escaped (C25, C26). *)
| W_show s : writes (GShow s) (lit " (" ++ escape_string s ++ lit ")Tj")
(** text.py 866: the text of a list in a standard font is not escaped. *)
| W_show_list s : lists s -> writes (GShow s) (lit " (" ++ s ++ lit ")Tj")
(** page.py 168. *)
| W_do n : writes (GDo n) (lit " /" ++ n +++ lit "Do").
(** page.py 71-88 and parser.py 150-151: portions are joined as they are. *)
Inductive writes_all : list gop -> str -> Prop :=
| WA_nil : writes_all [] []
| WA_cons o s os ss : writes o s -> writes_all os ss -> writes_all (o :: os) (s ++ ss).

(** ** Numbers *)

Lemma digits_of_app ds r : forallb digit ds = true -> (forall c t, r = c :: t -> digit c = false) -> digits_of (ds ++ r) = (ds, r).
Proof.
  intros H Hr. induction ds as [|c ds IH]; cbn [app forallb] in *.
  - destruct r as [|c t]; [reflexivity|]. cbn [digits_of]. now rewrite (Hr c t eq_refl).
  - apply andb_true_iff in H as [H1 H2]. cbn [digits_of]. now rewrite H1, (IH H2).
Qed.
Lemma digits_of_all ds : forallb digit ds = true -> digits_of ds = (ds, []).
Proof. intros H. rewrite <- (app_nil_r ds) at 1. apply digits_of_app; [exact H|discriminate]. Qed.
Lemma dec_digit n : forallb digit (dec n) = true.
Proof. exact (dec_digits n). Qed.
Lemma dval_dec n : dval (dec n) = n.
Proof.
  rewrite <- (dec_val n) at 2. unfold dval, val10, val10_from. generalize 0 as a. induction (dec n) as [|c l IH]; intros a; [reflexivity|]. cbn [fold_left].
  rewrite IH. f_equal. try reflexivity; lia.
Qed.
Lemma dval_from s : forall a, fold_left (fun a c => 10 * a + (c - 48)) s a = a * 10 ^ N.of_nat (List.length s) + dval s.
Proof.
  unfold dval. induction s as [|c s IH]; intros a; cbn [fold_left List.length]; [cbn; lia|].
  rewrite (IH (10 * a + (c - 48))), (IH (10 * 0 + (c - 48))). rewrite Nat2N.inj_succ, N.pow_succ_r'. lia.
Qed.
Lemma dval_app a b : dval (a ++ b) = dval a * 10 ^ N.of_nat (List.length b) + dval b.
Proof. unfold dval at 1. rewrite fold_left_app. apply dval_from. Qed.
Lemma dval_zeros k : dval (repeat 48 k) = 0.
Proof. unfold dval. induction k as [|k IH]; [reflexivity|exact IH]. Qed.
Lemma digits_zeros k : forallb digit (repeat 48 k) = true.
Proof. induction k as [|k IH]; [reflexivity|exact IH]. Qed.
Lemma dval_bound s : forallb digit s = true -> dval s < 10 ^ N.of_nat (List.length s).
Proof.
  induction s as [|c s IH]; intros H; [reflexivity|]. cbn [forallb] in H. apply andb_true_iff in H as [H1 H2].
  change (c :: s) with ([c] ++ s). rewrite dval_app. specialize (IH H2). rewrite app_length. cbn [List.length Nat.add]. rewrite Nat2N.inj_succ, N.pow_succ_r'.
  unfold digit in H1. unfold dval at 1. cbn [fold_left]. nia.
Qed.
Lemma dec_lead D : D <> 0 -> 10 ^ (N.of_nat (List.length (dec D)) - 1) <= D.
Proof.
  intros H. destruct (N.le_gt_cases (10 ^ (N.of_nat (List.length (dec D)) - 1)) D) as [|L]; [assumption|exfalso].
  destruct (Nat.le_gt_cases (List.length (dec D)) 1) as [L1|L1].
  - replace (N.of_nat (List.length (dec D)) - 1) with 0 in L by lia. cbn in L. lia.
  - replace (N.of_nat (List.length (dec D)) - 1) with (N.of_nat (List.length (dec D) - 1)) in L by lia.
    apply dec_len in L; lia.
Qed.
Lemma dec_len_pos D : (0 < List.length (dec D))%nat.
Proof. pose proof (dec_nonempty D). destruct (dec D); [congruence|cbn; lia]. Qed.

Definition tame (q : Q) : Prop := (q == 0)%Q \/ (1 # 10000 <= Qabs q < inject_Z (10 ^ 16))%Q.
Lemma pow10_pos e : (0 < inject_Z 10 ^ e)%Q.
Proof. apply Qpower_0_lt. reflexivity. Qed.
Lemma pow10_nat k : (inject_Z 10 ^ Z.of_nat k == inject_Z (10 ^ Z.of_nat k))%Q.
Proof. symmetry. apply Zpower_Qpower. lia. Qed.
Lemma pow10_neg k : (inject_Z 10 ^ (- Z.of_nat k) == / inject_Z (10 ^ Z.of_nat k))%Q.
Proof. rewrite Qpower_opp, pow10_nat. reflexivity. Qed.

Lemma pow10_inv a b : (inject_Z 10 ^ a < inject_Z 10 ^ b)%Q -> (a < b)%Z.
Proof. intros H. eapply Qpower_lt_compat_l_inv; [exact H|reflexivity]. Qed.
Lemma pow10_N k : (inject_Z (Z.of_N (10 ^ k)) == inject_Z 10 ^ Z.of_N k)%Q.
Proof. rewrite N2Z.inj_pow. apply Zpower_Qpower. lia. Qed.
Lemma inject_le_N a b : a <= b -> (inject_Z (Z.of_N a) <= inject_Z (Z.of_N b))%Q.
Proof. intros H. rewrite <- Zle_Qle. lia. Qed.
Lemma inject_lt_N a b : a < b -> (inject_Z (Z.of_N a) < inject_Z (Z.of_N b))%Q.
Proof. intros H. rewrite <- Zlt_Qlt. lia. Qed.
Lemma float_abs neg D e : (Qabs (float_value neg D e) == inject_Z (Z.of_N D) * inject_Z 10 ^ e)%Q.
Proof.
  unfold float_value. assert (H : (0 <= inject_Z (Z.of_N D) * inject_Z 10 ^ e)%Q).
  { apply Qmult_le_0_compat; [change 0%Q with (inject_Z 0); rewrite <- Zle_Qle; lia|apply Qlt_le_weak, pow10_pos]. }
  destruct neg; [rewrite Qabs_opp|]; now apply Qabs_pos.
Qed.
Lemma tame_point q neg D e : tame q -> (D = 0 -> e = 0%Z) -> (q == float_value neg D e)%Q ->
  (-4 < Z.of_nat (List.length (dec D)) + e <= 16)%Z.
Proof.
  intros T He Hq. destruct (N.eq_dec D 0) as [->|Hd]; [rewrite (He eq_refl); cbn; lia|].
  pose proof (dec_lead D Hd) as L. pose proof (dval_bound (dec D) (dec_digit D)) as U. rewrite dval_dec in U.
  pose proof (dec_len_pos D) as Hn. set (n := List.length (dec D)) in *. clearbody n.
  assert (Ha : (Qabs q == inject_Z (Z.of_N D) * inject_Z 10 ^ e)%Q) by (rewrite Hq; apply float_abs).
  apply inject_le_N in L. apply inject_lt_N in U. rewrite pow10_N in L, U. pose proof (pow10_pos e) as Pe.
  replace (Z.of_N (N.of_nat n)) with (Z.of_nat n) in U by lia. replace (Z.of_N (N.of_nat n - 1)) with (Z.of_nat n - 1)%Z in L by lia.
  assert (L2 : (inject_Z 10 ^ (Z.of_nat n - 1 + e) <= Qabs q)%Q).
  { rewrite Ha, Qpower_plus by discriminate. apply Qmult_le_compat_r; [exact L|apply Qlt_le_weak; exact Pe]. }
  assert (U2 : (Qabs q < inject_Z 10 ^ (Z.of_nat n + e))%Q).
  { rewrite Ha, Qpower_plus by discriminate. apply Qmult_lt_compat_r; [exact Pe|exact U]. }
  destruct T as [T|[T1 T2]].
  - exfalso. rewrite T in L2. pose proof (pow10_pos (Z.of_nat n - 1 + e)) as P. cbn in L2. apply (Qlt_not_le _ _ P). exact L2.
  - split.
    + apply pow10_inv. eapply Qle_lt_trans; [|exact U2]. eapply Qle_trans; [|exact T1]. vm_compute. discriminate.
    + enough (Z.of_nat n - 1 + e < 16)%Z by lia. apply pow10_inv. eapply Qle_lt_trans; [exact L2|]. exact T2.
Qed.

Lemma unsigned_int ds : ds <> [] -> forallb digit ds = true -> unsigned_value ds = Some (inject_Z (Z.of_N (dval ds))).
Proof. intros H1 H2. unfold unsigned_value. rewrite (digits_of_all _ H2). destruct ds; [congruence|reflexivity]. Qed.
Lemma unsigned_point a b : a <> [] -> forallb digit a = true -> forallb digit b = true ->
  unsigned_value (a ++ 46 :: b) = Some (inject_Z (Z.of_N (dval (a ++ b))) / inject_Z (10 ^ Z.of_nat (List.length b)))%Q.
Proof.
  intros H1 H2 H3. unfold unsigned_value. rewrite (digits_of_app a (46 :: b) H2); [|intros c t [= <- _]; reflexivity].
  rewrite (digits_of_all _ H3). destruct a; [congruence|reflexivity].
Qed.
Lemma digits_part k s : forallb digit s = true -> forallb digit (firstn k s) = true /\ forallb digit (skipn k s) = true.
Proof. intros H. rewrite <- (firstn_skipn k s), forallb_app in H. now apply andb_true_iff in H. Qed.

(** The text of a float that is not too small or large. *)
Definition positional (D : N) (e : Z) (s : str) : Prop := exists q,
  unsigned_value s = Some q /\ (q == inject_Z (Z.of_N D) * inject_Z 10 ^ e)%Q /\ s <> [] /\
  forallb (fun c => digit c || (c =? 46)) s = true.
Lemma digits_ok s : forallb digit s = true -> forallb (fun c => digit c || (c =? 46)) s = true.
Proof. intros H. rewrite forallb_forall in *. intros c Hc. now rewrite (H c Hc). Qed.
Lemma float_positional neg D e : (-4 < Z.of_nat (List.length (dec D)) + e <= 16)%Z ->
  exists s, float_str neg D e = (if neg then [45] else []) ++ s /\ positional D e s.
Proof.
  intros [H1 H2]. unfold float_str. set (ds := dec D). set (n := Z.of_nat (List.length ds)).
  pose proof (dec_digit D) as Hds. fold ds in Hds. pose proof (dval_dec D) as Hv. fold ds in Hv. pose proof (dec_len_pos D) as Hl. fold ds in Hl.
  rewrite (proj2 (Z.ltb_lt (-4) (n + e))), (proj2 (Z.leb_le (n + e) 16)); [|assumption|assumption]. cbn [andb].
  eexists. split; [reflexivity|]. unfold positional.
  destruct (Z.leb_spec (n + e) 0) as [L|L]; [|destruct (Z.leb_spec n (n + e)) as [L2|L2]].
  - set (k := Z.to_nat (- (n + e))). change ([48; 46] ++ repeat 48 k ++ ds) with ([48] ++ 46 :: (repeat 48 k ++ ds)).
    assert (Hb : forallb digit (repeat 48 k ++ ds) = true) by (rewrite forallb_app, digits_zeros, Hds; reflexivity).
    rewrite unsigned_point; [|discriminate|reflexivity|exact Hb]. eexists. split; [reflexivity|]. split; [|split; [discriminate|]].
    + replace ([48] ++ repeat 48 k ++ ds) with (repeat 48 (S k) ++ ds) by reflexivity. rewrite dval_app, dval_zeros, Hv, N.mul_0_l, N.add_0_l.
      rewrite app_length, repeat_length. replace e with (- Z.of_nat (k + List.length ds))%Z by (unfold k, n in *; lia).
      rewrite pow10_neg. reflexivity.
    + rewrite forallb_app. cbn [forallb]. rewrite (digits_ok _ Hb). reflexivity.
  - set (k := Z.to_nat (n + e - n)). change (ds ++ repeat 48 k ++ [46; 48]) with (ds ++ repeat 48 k ++ 46 :: [48]). rewrite app_assoc.
    assert (Ha : forallb digit (ds ++ repeat 48 k) = true) by (rewrite forallb_app, digits_zeros, Hds; reflexivity).
    rewrite unsigned_point; [|destruct ds; [cbn in Hl; lia|discriminate]|exact Ha|reflexivity]. eexists. split; [reflexivity|]. split; [|split; [destruct ds; [cbn in Hl; lia|discriminate]|]].
    + rewrite !dval_app, dval_zeros, Hv, repeat_length. change (dval [48]) with 0. change (N.of_nat (List.length [48])) with 1. rewrite !N.add_0_r.
      change (inject_Z (10 ^ Z.of_nat (List.length [48]))) with 10%Q. rewrite N.pow_1_r, !N2Z.inj_mul, !inject_Z_mult, pow10_N.
      replace (Z.of_N (N.of_nat k)) with e by (unfold k; lia). change (inject_Z (Z.of_N 10)) with 10%Q. field.
    + rewrite forallb_app. rewrite (digits_ok _ Ha). reflexivity.
  - set (k := Z.to_nat (n + e)). destruct (digits_part k ds Hds) as [Ha Hb].
    assert (Hf : firstn k ds <> []) by (destruct ds; [cbn in Hl; lia|]; destruct k eqn:Ek; [unfold k in Ek; lia|discriminate]).
    rewrite unsigned_point; [|exact Hf|exact Ha|exact Hb]. eexists. split; [reflexivity|]. split; [|split; [destruct (firstn k ds); [congruence|discriminate]|]].
    + rewrite firstn_skipn, Hv, skipn_length. replace e with (- Z.of_nat (List.length ds - k))%Z by (unfold k, n in *; lia).
      rewrite pow10_neg. reflexivity.
    + rewrite forallb_app. cbn [forallb]. rewrite (digits_ok _ Ha), (digits_ok _ Hb). reflexivity.
Qed.

(** A number token for [q]. *)
Definition numeral (q : Q) (s : bytes) : Prop := exists q',
  number_value s = Some q' /\ (q' == q)%Q /\ s <> [] /\ forallb is_regular s = true.
Lemma digit_regular s : forallb (fun c => digit c || (c =? 46)) s = true -> forallb is_regular s = true.
Proof.
  intros H. rewrite forallb_forall in *. intros c Hc. specialize (H c Hc). unfold digit in H. unfold is_regular, is_white, is_delim.
  cbn [existsb]. lia.
Qed.
Lemma number_unsigned s q : unsigned_value s = Some q -> (forall r, s <> 45 :: r) -> (forall r, s <> 43 :: r) -> number_value s = Some q.
Proof.
  intros H H1 H2. unfold number_value. destruct s as [|c s]; [exact H|].
  destruct (N.eq_dec c 45) as [->|E1]; [now contradiction (H1 s)|]. destruct (N.eq_dec c 43) as [->|E2]; [now contradiction (H2 s)|].
  destruct c as [|p]; [exact H|]. do 6 (destruct p as [p|p|]; try exact H; try congruence).
Qed.
Lemma unsigned_plain s : forallb (fun c => digit c || (c =? 46)) s = true -> (forall r, s <> 45 :: r) /\ (forall r, s <> 43 :: r).
Proof. intros H. split; intros r ->; discriminate H. Qed.
Lemma py_numeral q s : tame q -> py_number q s -> numeral q s.
Proof.
  intros T H. destruct H as [z Hz|neg D e He Hq].
  - unfold int_str, numeral. assert (P : forall n, exists q', number_value (dec n) = Some q' /\ (q' == inject_Z (Z.of_N n))%Q /\ unsigned_value (dec n) = Some q').
    { intros n. eexists. split; [apply number_unsigned; [apply unsigned_int; [apply dec_nonempty|apply dec_digit]| |]|split; [rewrite dval_dec; reflexivity|apply unsigned_int; [apply dec_nonempty|apply dec_digit]]];
        apply (unsigned_plain (dec n)), digits_ok, dec_digit. }
    destruct z as [|p|p]; cbn [dec_Z].
    + destruct (P 0) as (q' & P1 & P2 & _). exists q'. split; [exact P1|]. split; [rewrite P2, Hz; reflexivity|]. split; [apply dec_nonempty|exact (dec_Z_regular 0)].
    + destruct (P (Npos p)) as (q' & P1 & P2 & _). exists q'. split; [exact P1|]. split; [rewrite P2, Hz; reflexivity|]. split; [apply dec_nonempty|exact (dec_Z_regular (Zpos p))].
    + destruct (P (Npos p)) as (q' & _ & P2 & P3). exists (- q')%Q. split; [cbn [number_value]; now rewrite P3|]. split; [rewrite P2, Hz; reflexivity|]. split; [discriminate|exact (dec_Z_regular (Zneg p))].
  - destruct (float_positional neg D e (tame_point _ _ _ _ T He Hq)) as (u & -> & q' & U1 & U2 & U3 & U4).
    pose proof (digit_regular _ U4) as Ur. unfold numeral. destruct neg; cbn [app].
    + exists (- q')%Q. split; [cbn [number_value]; now rewrite U1|]. split; [rewrite U2, Hq; reflexivity|]. split; [discriminate|]. cbn [forallb]. rewrite Ur. reflexivity.
    + exists q'. destruct (unsigned_plain _ U4). split; [now apply number_unsigned|]. split; [rewrite U2, Hq; reflexivity|]. split; assumption.
Qed.

(** ** Tokens *)

Definition brk (s : bytes) : Prop := forall c r, s = c :: r -> is_regular c = false.
Definition brk1 (s : bytes) : Prop := exists c r, s = c :: r /\ is_regular c = false.
Definition lexes (s : bytes) (l : list token) : Prop := forall rest l', brk rest -> lexed rest l' -> lexed (s ++ rest) (l ++ l').

Lemma brk1_app s r : brk1 s -> brk (s ++ r).
Proof. intros (c & t & -> & H) c' r' [= <- _]. exact H. Qed.
Lemma regulars_app w r : forallb is_regular w = true -> brk r -> regulars (w ++ r) = (w, r).
Proof.
  intros H Hr. induction w as [|c w IH]; cbn [app forallb] in *.
  - destruct r as [|c t]; [reflexivity|]. cbn [regulars]. now rewrite (Hr c t eq_refl).
  - apply andb_true_iff in H as [H1 H2]. cbn [regulars]. now rewrite H1, (IH H2).
Qed.
Lemma regular_not c : is_regular c = true -> is_white c = false /\ (c =? 37) = false /\ (c =? 47) = false /\ (c =? 40) = false /\ (c =? 91) = false /\ (c =? 93) = false.
Proof.
  unfold is_regular, is_white, is_delim. cbn [existsb]. intros H. lia.
Qed.
Lemma skip_space s : skip_ws false (32 :: s) = skip_ws false s.
Proof. reflexivity. Qed.
Lemma next_space s : next_token (32 :: s) = next_token s.
Proof. reflexivity. Qed.
Lemma next_regular w r : w <> [] -> forallb is_regular w = true -> brk r ->
  next_token (w ++ r) = Some (match number_value w with Some q => TNum q | None => TWord w end, r).
Proof.
  intros Hn Hw Hr. destruct w as [|c w]; [congruence|]. pose proof Hw as Hc. cbn [forallb] in Hc. apply andb_true_iff in Hc as [Hc _].
  destruct (regular_not c Hc) as (E1 & E2 & E3 & E4 & E5 & E6). unfold next_token. cbn [app skip_ws]. rewrite E1, E2, E3, E4, E5, E6, Hc.
  change (c :: w ++ r) with ((c :: w) ++ r). rewrite (regulars_app _ _ Hw Hr). reflexivity.
Qed.
Lemma lexes_num q s t tl : numeral q s -> brk1 t -> lexes t tl -> exists q', (q' == q)%Q /\ lexes (s ++ t) (TNum q' :: tl).
Proof.
  intros (q' & N1 & N2 & N3 & N4) Hb Ht. exists q'. split; [exact N2|]. intros rest l' Hr Hl. cbn [app]. rewrite <- app_assoc.
  econstructor; [rewrite next_regular; [rewrite N1; reflexivity|exact N3|exact N4|apply brk1_app; exact Hb]|]. apply Ht; assumption.
Qed.
Lemma lexed_space s l : lexed s l -> lexed (32 :: s) l.
Proof. intros H. destruct H as [s H|s t r l H1 H2]; [apply lexed_end; exact H|]. eapply lexed_next; [rewrite next_space; exact H1|exact H2]. Qed.
Lemma lexes_space s l : lexes s l -> lexes (32 :: s) l.
Proof. intros H rest l' Hr Hl. cbn [app]. apply lexed_space. now apply H. Qed.
Definition spaced (ss : list bytes) (t : bytes) : bytes := fold_right (fun s t => 32 :: s ++ t) t ss.
Lemma spaced_brk ss t : brk1 t -> brk1 (spaced ss t).
Proof. intros H. destruct ss; [exact H|]. eexists _, _. split; reflexivity. Qed.
Lemma lexes_nums t tl : brk1 t -> lexes t tl -> forall qs ss, Forall2 numeral qs ss ->
  exists qs', Forall2 Qeq qs' qs /\ lexes (spaced ss t) (map TNum qs' ++ tl).
Proof.
  intros Hb Ht qs ss H. induction H as [|q s qs ss Hq H (qs' & I1 & I2)]; [exists []; split; [constructor|exact Ht]|].
  destruct (lexes_num q s _ _ Hq (spaced_brk ss t Hb) I2) as (q' & E & L). exists (q' :: qs'). split; [now constructor|].
  cbn [spaced fold_right map app]. apply lexes_space. exact L.
Qed.
Lemma lexes_word w : w <> [] -> forallb is_regular w = true -> number_value w = None -> lexes w [TWord w].
Proof.
  intros H1 H2 H3 rest l' Hr Hl. cbn [app]. econstructor; [rewrite next_regular by assumption; rewrite H3; reflexivity|exact Hl].
Qed.
Lemma lexes_name n t tl : forallb is_regular n = true -> brk1 t -> lexes t tl -> lexes (47 :: n ++ t) (TName n :: tl).
Proof.
  intros H Hb Ht rest l' Hr Hl. cbn [app]. rewrite <- app_assoc. econstructor; [|apply Ht; eassumption].
  unfold next_token. cbn [skip_ws]. change (is_white 47) with false. change (47 =? 37) with false. cbn [N.eqb Pos.eqb].
  rewrite regulars_app; [reflexivity|exact H|apply brk1_app; exact Hb].
Qed.
Lemma lexes_str op l t tl : (forall rest, read_lit 0 (op ++ 41 :: rest) = Some (l, rest)) -> lexes t tl -> lexes (40 :: op ++ 41 :: t) (TStr l :: tl).
Proof.
  intros H Ht rest l' Hr Hl. cbn [app]. rewrite <- app_assoc. cbn [app]. econstructor; [|apply Ht; eassumption].
  unfold next_token. cbn [skip_ws]. change (is_white 40) with false. change (40 =? 37) with false. cbn [N.eqb Pos.eqb]. rewrite H. reflexivity.
Qed.
Lemma lexes_open t tl : lexes t tl -> lexes (91 :: t) (TOpen :: tl).
Proof. intros Ht rest l' Hr Hl. cbn [app]. econstructor; [reflexivity|apply Ht; assumption]. Qed.
Lemma lexes_close t tl : lexes t tl -> lexes (93 :: t) (TClose :: tl).
Proof. intros Ht rest l' Hr Hl. cbn [app]. econstructor; [reflexivity|apply Ht; assumption]. Qed.
Lemma num0 : numeral 0 [48].
Proof. exists 0%Q. repeat split; discriminate. Qed.
Lemma num1 : numeral 1 [49].
Proof. exists 1%Q. repeat split; discriminate. Qed.

(** ** One operator *)

Definition not_word (t : token) : Prop := match t with TWord _ => False | _ => True end.
Definition op_reads (s : str) (o : gop) : Prop := exists args w o',
  lexes s (args ++ [TWord w]) /\ Forall not_word args /\ operator w args = Some o' /\ op_same o' o.
Lemma nums_words qs : Forall not_word (map TNum qs).
Proof. induction qs; constructor; [exact I|assumption]. Qed.
Lemma op_nums w qs ss o : w <> [] -> forallb is_regular w = true -> number_value w = None -> Forall2 numeral qs ss ->
  (forall qs', Forall2 Qeq qs' qs -> exists o', operator w (map TNum qs') = Some o' /\ op_same o' o) ->
  op_reads (spaced ss (32 :: w)) o.
Proof.
  intros H1 H2 H3 Hn Ho. destruct (lexes_nums (32 :: w) [TWord w]) with (2 := lexes_space _ _ (lexes_word w H1 H2 H3)) (3 := Hn) as (qs' & E & L);
    [eexists _, _; split; reflexivity|]. destruct (Ho qs' E) as (o' & O1 & O2). exists (map TNum qs'), w, o'. split; [exact L|]. split; [apply nums_words|]. split; assumption.
Qed.

Definition op_numbers (o : gop) : list Q :=
  match o with
  | GConcat a b c d e f => [a; b; c; d; e; f]
  | GFillColor (Gray a) | GStrokeColor (Gray a) | GWidth a | GRise a | GSpacing a | GFont _ a => [a]
  | GFillColor (Rgb a b c) | GStrokeColor (Rgb a b c) => [a; b; c]
  | GDash l p => p :: l
  | GRect a b c d => [a; b; c; d]
  | GMove a b | GLine a b | GTm a b | GTd a b => [a; b]
  | _ => []
  end.
(** What is asked of an operator: numbers that are printed without exponent,
    lines that do not go up, names of regular characters, no carriage return
    in a text. *)
Definition printable (o : gop) : Prop :=
  Forall tame (op_numbers o) /\
  match o with
  | GTd _ y => (y <= 0)%Q
  | GFont n _ | GDo n => forallb is_regular n = true
  | GShow s => ~ In 13 s
  | _ => True
  end.
Hypothesis lists_plain : forall s, lists s -> plain_from 0 s = true.

Ltac inv2 := repeat match goal with
  | H : Forall2 Qeq _ (_ :: _) |- _ => inversion H; clear H; subst
  | H : Forall2 Qeq _ [] |- _ => inversion H; clear H; subst
  end.
Ltac by_nums W Q S :=
  change (op_reads (spaced S (32 :: lit W)) _) || idtac;
  refine (op_nums (lit W) Q S _ _ _ _ _ _);
  [discriminate|reflexivity|reflexivity|repeat (constructor; [first [exact num0|exact num1|apply py_numeral; assumption]|]); constructor
  |intros qs' F; inv2; eexists; split; [cbn [map operator]|]].

Lemma tame_opp q : tame q -> tame (- q).
Proof. intros [H|H]; [left; rewrite H; reflexivity|right; now rewrite Qabs_opp]. Qed.
Lemma tame_eq a b : (a == b)%Q -> tame a -> tame b.
Proof. unfold tame. intros E H. now rewrite <- E. Qed.
Lemma word_refl s : word (lit s) s = true.
Proof. apply str_eqb_refl. Qed.

Lemma qeq_bool_of a b : (a == b)%Q -> Qeq_bool a b = true.
Proof. apply Qeq_eq_bool. Qed.
Lemma cap_of q n : (q == inject_Z n)%Q -> (Qnum q / Zpos (Qden q))%Z = n.
Proof.
  intros H. unfold Qeq in H. cbn [inject_Z Qnum Qden] in H. rewrite Z.mul_1_r in H. rewrite H. apply Z.div_mul. discriminate.
Qed.
Lemma numeral_minus h sh : numeral h sh -> hd 0 sh <> 45 -> (0 <= h)%Q -> (forall r, sh <> 43 :: r) -> numeral (- h) (45 :: sh).
Proof.
  intros (q' & N1 & N2 & N3 & N4) Hh Hp Hq. exists (- q')%Q. split; [|split; [rewrite N2; reflexivity|split; [discriminate|]]].
  - cbn [number_value]. enough (E : unsigned_value sh = Some q') by now rewrite E. rewrite <- N1. symmetry.
    destruct (unsigned_value sh) as [u|] eqn:Eu.
    + apply number_unsigned; [exact Eu| |exact Hq]. intros r ->. now apply Hh.
    + unfold number_value. destruct sh as [|c r]; [reflexivity|]. cbn [hd] in Hh.
      destruct (N.eq_dec c 43) as [->|E2]; [now contradiction (Hq r)|].
      destruct c as [|p]; [exact Eu|]. do 6 (destruct p as [p|p|]; try exact Eu; try congruence).
  - cbn [forallb]. rewrite N4. reflexivity.
Qed.
Lemma py_no_plus q s : py_number q s -> forall r, s <> 43 :: r.
Proof.
  intros H r E. destruct H as [z Hz|neg D e He Hq].
  - unfold int_str in E. pose proof (dec_Z_chars z 43) as C. rewrite E in C. destruct (C (or_introl eq_refl)) as [X|X]; discriminate X.
  - unfold float_str in E. pose proof (dec_digit D) as Hd. pose proof (dec_nonempty D) as Hn. destruct neg; [discriminate E|].
    destruct (dec D) as [|c ds]; [congruence|]. cbn [forallb] in Hd. apply andb_true_iff in Hd as [Hd _]. cbn [app] in E.
    destruct (_ && _); [destruct (Z.leb _ 0); [discriminate E|]; destruct (Z.leb _ _); [cbn [app] in E; injection E as -> _; discriminate Hd|]|].
    + destruct (Z.to_nat _); [discriminate E|]. cbn in E. injection E as -> _. discriminate Hd.
    + destruct ds; cbn [app] in E; injection E as -> _; discriminate Hd.
Qed.
Lemma py_minus q s r : py_number q s -> s = 45 :: r -> (q <= 0)%Q.
Proof.
  intros H E. destruct H as [z Hz|neg D e He Hq].
  - unfold int_str in E. destruct z as [|p|p].
    + discriminate E.
    + exfalso. cbn [dec_Z] in E. pose proof (dec_digit (Npos p)) as Hd. rewrite E in Hd. discriminate Hd.
    + rewrite Hz. change 0%Q with (inject_Z 0). rewrite <- Zle_Qle. lia.
  - destruct neg.
    + rewrite Hq. unfold float_value. apply (Qopp_le_compat 0). apply Qmult_le_0_compat; [change 0%Q with (inject_Z 0); rewrite <- Zle_Qle; lia|apply Qlt_le_weak, pow10_pos].
    + exfalso. unfold float_str in E. pose proof (dec_digit D) as Hd. pose proof (dec_nonempty D) as Hn.
      destruct (dec D) as [|c ds]; [congruence|]. cbn [forallb] in Hd. apply andb_true_iff in Hd as [Hd _]. cbn [app] in E.
      destruct (_ && _); [destruct (Z.leb _ 0); [discriminate E|]; destruct (Z.leb _ _); [cbn [app] in E; injection E as -> _; discriminate Hd|]|].
      * destruct (Z.to_nat _); [discriminate E|]. cbn in E. injection E as -> _. discriminate Hd.
      * destruct ds; cbn [app] in E; injection E as -> _; discriminate Hd.
Qed.
Lemma no_cr s : ~ In 13 s -> forallb (fun c => negb (c =? 13)) s = true.
Proof. intros H. apply forallb_forall. intros c Hc. apply negb_true_iff, N.eqb_neq. intros ->. exact (H Hc). Qed.
Lemma op_show op l : (forall rest, read_lit 0 (op ++ 41 :: rest) = Some (l, rest)) -> op_reads (lit " (" ++ op ++ lit ")Tj") (GShow l).
Proof.
  intros H. exists [TStr l], (lit "Tj"), (GShow l). split; [|split; [repeat constructor|split; reflexivity]].
  change (lit " (" ++ op ++ lit ")Tj") with (32 :: 40 :: op ++ 41 :: lit "Tj"). apply lexes_space, lexes_str; [exact H|].
  apply lexes_word; [discriminate|reflexivity|reflexivity].
Qed.
Lemma one_op o s : writes o s -> printable o -> op_reads s o.
Proof.
  intros W [P1 P2]. destruct W as [| |x y sx sy|w h x y sw sh sx sy|a sa|a b c sa sb sc|a sa|a b c sa sb sc|w sw| | | |a b sa sb|b p sb sp|x y w h sx sy sw sh| |x y sx sy|x y sx sy| | | |x y sx sy|n a sa|a sa|a sa|x y h sx sh N1 N2 N3 N4|x sx|s|s|n];
    cbn [op_numbers] in P1;
    repeat match goal with H : Forall tame (_ :: _) |- _ => apply Forall_cons_iff in H as [? H] end.
  - by_nums "q"%string (@nil Q) (@nil bytes); [reflexivity|exact I].
  - by_nums "Q"%string (@nil Q) (@nil bytes); [reflexivity|exact I].
  - by_nums "cm"%string [1; 0; 0; 1; x; y]%Q [[49]; [48]; [48]; [49]; sx; sy]; [reflexivity|cbn; auto 10].
  - by_nums "cm"%string [w; 0; 0; h; x; y]%Q [sw; [48]; [48]; sh; sx; sy]; [reflexivity|cbn; auto 10].
  - by_nums "g"%string [a] [sa]; [reflexivity|cbn; auto].
  - by_nums "rg"%string [a; b; c] [sa; sb; sc]; [reflexivity|cbn; auto].
  - by_nums "G"%string [a] [sa]; [reflexivity|cbn; auto].
  - by_nums "RG"%string [a; b; c] [sa; sb; sc]; [reflexivity|cbn; auto].
  - by_nums "w"%string [w] [sw]; [reflexivity|cbn; auto].
  - by_nums "J"%string [0%Q] [[48]]. 
    + rewrite (cap_of x 0) by assumption. rewrite (qeq_bool_of (inject_Z 0) x) by (symmetry; assumption). reflexivity.
    + reflexivity.
  - by_nums "J"%string [1%Q] [[49]].
    + rewrite (cap_of x 1) by assumption. rewrite (qeq_bool_of (inject_Z 1) x) by (symmetry; assumption). reflexivity.
    + reflexivity.
  - destruct (lexes_nums (32 :: lit "d") [TWord (lit "d")]) with (qs := [0%Q]) (ss := [[48]]) as (qs' & E & L);
      [eexists _, _; split; reflexivity|apply lexes_space, lexes_word; [discriminate|reflexivity|reflexivity]|repeat constructor; exact num0|]. inv2.
    exists [TOpen; TClose; TNum x], (lit "d"), (GDash [] x). split; [|split; [repeat constructor|split; [reflexivity|split; [constructor|assumption]]]].
    change (lit " [] 0 d") with (32 :: 91 :: 93 :: spaced [[48]] (32 :: lit "d")). apply lexes_space, lexes_open, lexes_close. exact L.
  - destruct (lexes_nums (32 :: lit "d") [TWord (lit "d")]) with (qs := [0%Q]) (ss := [[48]]) as (qs' & E & L);
      [eexists _, _; split; reflexivity|apply lexes_space, lexes_word; [discriminate|reflexivity|reflexivity]|repeat constructor; exact num0|]. inv2.
    destruct (lexes_nums (93 :: spaced [[48]] (32 :: lit "d")) (TClose :: TNum x :: [TWord (lit "d")])) with (qs := [b]) (ss := [sb]) as (qs' & E & L2);
      [eexists _, _; split; reflexivity|apply lexes_close; exact L|repeat constructor; apply py_numeral; assumption|]. inv2.
    destruct (lexes_num a sa (spaced [sb] (93 :: spaced [[48]] (32 :: lit "d"))) ([TNum x0] ++ TClose :: TNum x :: [TWord (lit "d")])) as (a' & Ea & L3);
      [apply py_numeral; assumption|eexists _, _; split; reflexivity|exact L2|].
    exists [TOpen; TNum a'; TNum x0; TClose; TNum x], (lit "d"), (GDash [a'; x0] x). split; [|split; [repeat constructor|split; [reflexivity|split; [repeat constructor; assumption|assumption]]]].
    change (lit " [" ++ sa +++ sb ++ lit "] 0 d") with (32 :: 91 :: sa ++ spaced [sb] (93 :: spaced [[48]] (32 :: lit "d"))). apply lexes_space, lexes_open. exact L3.
  - destruct (lexes_nums (32 :: lit "d") [TWord (lit "d")]) with (qs := [p]) (ss := [sp]) as (qs' & E & L);
      [eexists _, _; split; reflexivity|apply lexes_space, lexes_word; [discriminate|reflexivity|reflexivity]|repeat constructor; apply py_numeral; assumption|]. inv2.
    destruct (lexes_nums (93 :: spaced [sp] (32 :: lit "d")) (TClose :: TNum x :: [TWord (lit "d")])) with (qs := [b]) (ss := [sb]) as (qs' & E & L2);
      [eexists _, _; split; reflexivity|apply lexes_close; exact L|repeat constructor; apply py_numeral; assumption|]. inv2.
    destruct (lexes_num 0 [48] (spaced [sb] (93 :: spaced [sp] (32 :: lit "d"))) ([TNum x0] ++ TClose :: TNum x :: [TWord (lit "d")])) as (a' & Ea & L3);
      [exact num0|eexists _, _; split; reflexivity|exact L2|].
    exists [TOpen; TNum a'; TNum x0; TClose; TNum x], (lit "d"), (GDash [a'; x0] x). split; [|split; [repeat constructor|split; [reflexivity|split; [repeat constructor; assumption|assumption]]]].
    change (lit " [0" +++ sb ++ lit "]" +++ sp +++ lit "d") with (32 :: 91 :: [48] ++ spaced [sb] (93 :: spaced [sp] (32 :: lit "d"))). apply lexes_space, lexes_open. exact L3.
  - by_nums "re"%string [x; y; w; h] [sx; sy; sw; sh]; [reflexivity|cbn; auto 10].
  - by_nums "F"%string (@nil Q) (@nil bytes); [reflexivity|exact I].
  - by_nums "m"%string [x; y] [sx; sy]; [reflexivity|cbn; auto].
  - by_nums "l"%string [x; y] [sx; sy]; [reflexivity|cbn; auto].
  - by_nums "S"%string (@nil Q) (@nil bytes); [reflexivity|exact I].
  - by_nums "BT"%string (@nil Q) (@nil bytes); [reflexivity|exact I].
  - by_nums "ET"%string (@nil Q) (@nil bytes); [reflexivity|exact I].
  - by_nums "Tm"%string [1; 0; 0; 1; x; y]%Q [[49]; [48]; [48]; [49]; sx; sy].
    + change (word (lit "Tm") "cm") with false. change (word (lit "Tm") "Tm") with true. cbn [andb].
      rewrite !qeq_bool_of by assumption. reflexivity.
    + cbn; auto.
  - destruct (lexes_nums (32 :: lit "Tf") [TWord (lit "Tf")]) with (qs := [a]) (ss := [sa]) as (qs' & E & L);
      [eexists _, _; split; reflexivity|apply lexes_space, lexes_word; [discriminate|reflexivity|reflexivity]|repeat constructor; apply py_numeral; assumption|]. inv2.
    exists [TName n; TNum x], (lit "Tf"), (GFont n x). split; [|split; [repeat constructor|split; [reflexivity|split; [reflexivity|assumption]]]].
    change (lit " /" ++ n +++ sa +++ lit "Tf") with (32 :: 47 :: n ++ spaced [sa] (32 :: lit "Tf")). apply lexes_space, lexes_name; [exact P2|eexists _, _; split; reflexivity|exact L].
  - by_nums "Ts"%string [a] [sa]; [reflexivity|cbn; auto].
  - by_nums "Tw"%string [a] [sa]; [reflexivity|cbn; auto].
  - assert (Hh : (0 <= h)%Q) by (rewrite N4 in P2; lra).
    assert (Th : tame h) by (apply (tame_eq (- y)); [rewrite N4; ring|apply tame_opp; assumption]).
    refine (op_nums (lit "Td") [x; (- h)%Q] [sx; 45 :: sh] _ _ _ _ _ _); [discriminate|reflexivity|reflexivity| |].
    + constructor; [apply py_numeral; assumption|]. constructor; [|constructor].
      apply numeral_minus; [apply py_numeral; assumption| |exact Hh|exact (py_no_plus _ _ N2)].
      destruct (Qeq_dec h 0) as [Hz0|Hz0]; [exact (N3 Hz0)|]. intros Hd. destruct sh as [|c r]; [discriminate Hd|]. cbn [hd] in Hd. subst c.
      apply Hz0. apply Qle_antisym; [exact (py_minus _ _ _ N2 eq_refl)|exact Hh].
    + intros qs' F. inv2. eexists. split; [reflexivity|]. cbn. split; [assumption|]. rewrite N4. assumption.
  - by_nums "Td"%string [x; 0%Q] [sx; [48]]; [reflexivity|cbn; auto].
  - apply op_show. intros rest. apply read_lit_escape. now apply no_cr.
  - apply op_show. intros rest. apply plain_reads. now apply lists_plain.
  - exists [TName n], (lit "Do"), (GDo n). split; [|split; [repeat constructor|split; reflexivity]].
    change (lit " /" ++ n +++ lit "Do") with (32 :: 47 :: n ++ 32 :: lit "Do"). apply lexes_space, lexes_name; [exact P2|eexists _, _; split; reflexivity|].
    apply lexes_space, lexes_word; [discriminate|reflexivity|reflexivity].
Qed.

Lemma operators_args w l : forall args pre, Forall not_word args ->
  operators pre (args ++ TWord w :: l) = match operator w (pre ++ args), operators [] l with Some o, Some os => Some (o :: os) | _, _ => None end.
Proof.
  induction args as [|a args IH]; intros pre H; [cbn [app operators]; now rewrite app_nil_r|].
  apply Forall_cons_iff in H as [Ha H]. cbn [app]. specialize (IH (pre ++ [a]) H). rewrite <- app_assoc in IH. cbn [app] in IH.
  rewrite <- IH. destruct a; try reflexivity. destruct Ha.
Qed.
Lemma writes_brk ops s : writes_all ops s -> brk s.
Proof.
  intros H. destruct H as [|o s os ss W _]; [intros c r E; discriminate E|].
  intros c r E. destruct W; cbn in E; injection E as <- _; reflexivity.
Qed.
Theorem stream_reads ops s : writes_all ops s -> Forall printable ops -> exists ops', reads_as s ops' /\ Forall2 op_same ops' ops.
Proof.
  intros W. induction W as [|o s os ss Ws W IH]; intros P.
  - exists []. split; [|constructor]. exists []. split; [constructor; reflexivity|reflexivity].
  - apply Forall_cons_iff in P as [P1 P2]. destruct (IH P2) as (os' & (l & L1 & L2) & I2).
    destruct (one_op o s Ws P1) as (args & w & o' & A1 & A2 & A3 & A4).
    exists (o' :: os'). split; [|constructor; assumption]. exists ((args ++ [TWord w]) ++ l). split.
    + apply A1; [exact (writes_brk _ _ W)|exact L1].
    + rewrite <- app_assoc. cbn [app]. rewrite operators_args by exact A2. cbn [app]. now rewrite A3, L2.
Qed.
End Lists.
