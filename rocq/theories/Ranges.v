(** Model of the range strings of pdfme/utils.py 381-419 and of the position
    strings of pdfme/table.py 261-316. *)
From Verif Require Import Py PyStr.
From Coq Require Import String.
Open Scope Z_scope.
Open Scope list_scope.

Ltac cases_if := repeat match goal with
  | |- context [if ?b then _ else _] => destruct b eqn:?
  | H : context [if ?b then _ else _] |- _ => destruct b eqn:?
  end.

(** Python's [range(start, stop, step)], [step <> 0]. *)
Record range := mkRange { r_start : Z; r_stop : Z; r_step : Z }.

(** [n in range(...)] for an int. *)
Definition range_mem (r : range) (n : Z) : bool :=
  (if 0 <? r_step r then (r_start r <=? n) && (n <? r_stop r)
   else (r_stop r <? n) && (n <=? r_start r))
  && ((n - r_start r) mod (r_step r) =? 0).

(** [len(range(...))] and its elements in order. *)
Definition range_len (r : range) : nat :=
  Z.to_nat (if 0 <? r_step r then (r_stop r - r_start r + r_step r - 1) / r_step r
            else (r_start r - r_stop r - r_step r - 1) / (- r_step r)).
Definition range_list (r : range) : list Z :=
  map (fun k => r_start r + Z.of_nat k * r_step r) (seq 0 (range_len r)).

(** A call of [range] with unpacked arguments: 2 or 3 integers, a zero step raises; with more
    arguments it raises TypeError. *)
Definition py_range (args : list Z) : res range :=
  match args with
  | [a; b] => Ok (mkRange a b 1)
  | [a; b; c] => if c =? 0 then Err ValueError else Ok (mkRange a b c)
  | _ => Err TypeError
  end.

(** utils.py 381-390 [MuiltiRange]: a list of ranges. *)
Definition multirange := list range.
Definition mr_mem (m : multirange) (n : Z) : bool := existsb (fun r => range_mem r n) m.

Definition is_empty (s : str) : bool := match s with [] => true | _ => false end.

(** utils.py 405-417: one comma separated part. *)
Definition parse_range_part (part : str) : res range :=
  match split_on 58 part with
  | [] => Err TypeError
  | [p] => do i <- py_int (py_strip p); py_range [i; i + 1]
  | p0 :: p1 :: rest =>
      let first := py_strip p0 in
      do a <- (if is_empty first then Ok 0 else py_int first);
      do b <- py_int (py_strip p1);
      match rest with
      | [] => py_range [a; b]
      | [p2] => do c <- py_int (py_strip p2); py_range [a; b; c]
      | p2 :: _ => do c <- py_int (py_strip p2); Err TypeError
      end
  end.

Fixpoint mapM {A B} (f : A -> res B) (l : list A) : res (list B) :=
  match l with
  | [] => Ok []
  | x :: r => do y <- f x; do ys <- mapM f r; Ok (y :: ys)
  end.

(** utils.py 392-419 [parse_range_string]. *)
Definition parse_range_string (s : str) : res multirange :=
  mapM parse_range_part (split_on 44 s).

(** table.py 287-316 [PDFTable.parse_range_string]: the indexes in order. *)
Definition table_range (data0 : str) (count : Z) : res (list Z) :=
  let data := if is_empty data0 then lit ":" else data0 in
  if existsb (N.eqb 58) data then
    match split_on 58 data with
    | p0 :: p1 :: rest =>
        do n0 <- (if is_empty (py_strip p0) then Ok 0 else py_int p0);
        let a := if 0 <=? n0 then n0 else count + n0 in
        do n1 <- (if is_empty (py_strip p1) then Ok count else py_int p1);
        let b := if 0 <=? n1 then n1 else count + n1 in
        match rest with
        | [] => do r <- py_range [a; b]; Ok (range_list r)
        | [p2] => do c <- (if is_empty (py_strip p2) then Ok 1 else py_int p2);
                  do r <- py_range [a; b; c]; Ok (range_list r)
        | p2 :: _ => do c <- (if is_empty (py_strip p2) then Ok 1 else py_int p2);
                     Err TypeError
        end
    | _ => Err TypeError
    end
  else
    mapM (fun i => do n <- py_int i; Ok (if n <? 0 then count + n else n))
         (split_on 44 data).

(** table.py 261-285 [parse_pos_string]: the pairs in order.  [zip] ignores
    the parts after the second semicolon. *)
Definition parse_pos_string (pos : str) (counts : Z * Z) : res (list (Z * Z)) :=
  let strs := match split_on 59 pos with
              | [p] => [p; lit ":"]
              | l => l
              end in
  match strs with
  | p0 :: p1 :: _ =>
      do r0 <- table_range p0 (fst counts);
      do r1 <- table_range p1 (snd counts);
      Ok (list_prod r0 r1)
  | _ => Err IndexError
  end.

(** ** Laws of [range] *)

(** Specification of [range]: the arithmetic progression [a, a+c, ...] up to,
    not including, [b]. *)
Definition in_progression (a b c n : Z) : Prop :=
  exists k, 0 <= k /\ n = a + k * c /\ (0 < c -> n < b) /\ (c < 0 -> b < n).

Lemma range_mem_spec a b c n : c <> 0 ->
  range_mem (mkRange a b c) n = true <-> in_progression a b c n.
Proof.
  intros Hc. unfold range_mem, in_progression. cbn [r_start r_stop r_step].
  rewrite andb_true_iff, Z.eqb_eq. split.
  - intros [H1 H2]. apply Z.mod_divide in H2; [|exact Hc]. destruct H2 as [k Hk].
    exists k. destruct (0 <? c) eqn:E.
    + assert (0 <= k) by nia. repeat split; lia.
    + assert (0 <= k) by nia. repeat split; lia.
  - intros (k & Hk & -> & H1 & H2). split.
    + destruct (0 <? c) eqn:E; nia.
    + replace (a + k * c - a) with (k * c) by lia. apply Z.mod_mul, Hc.
Qed.

Lemma range_list_spec a b c n : c <> 0 ->
  In n (range_list (mkRange a b c)) <-> in_progression a b c n.
Proof.
  intros Hc. unfold range_list, in_progression, range_len. cbn [r_start r_stop r_step].
  rewrite in_map_iff. split.
  - intros (k & <- & Hin). apply in_seq in Hin. exists (Z.of_nat k).
    repeat split; try lia.
    + intros Hp. destruct (0 <? c) eqn:E; [|lia].
      pose proof (Z.mul_div_le (b - a + c - 1) c Hp).
      assert (Z.of_nat k < (b - a + c - 1) / c) by lia. nia.
    + intros Hn. destruct (0 <? c) eqn:E; [lia|].
      pose proof (Z.mul_div_le (a - b - c - 1) (- c) ltac:(lia)).
      assert (Z.of_nat k < (a - b - c - 1) / - c) by lia. nia.
  - intros (k & Hk & -> & H1 & H2). exists (Z.to_nat k). split; [lia|].
    apply in_seq. split; [lia|]. cbn [Nat.add].
    destruct (0 <? c) eqn:E.
    + assert (k + 1 <= (b - a + c - 1) / c); [|lia].
      apply Z.div_le_lower_bound; [lia|]. nia.
    + assert (k + 1 <= (a - b - c - 1) / - c); [|lia].
      apply Z.div_le_lower_bound; [lia|]. nia.
Qed.

(** ** Rendering and parsing range strings *)

(** A number with spaces around it. *)
Definition padded (a b : nat) (s : str) : str := repeat 32%N a ++ s ++ repeat 32%N b.

Lemma padded_spaces k : forallb is_space (repeat 32%N k) = true.
Proof. apply forallb_forall. intros x Hx. apply repeat_spec in Hx. now subst. Qed.

Lemma py_int_padded a b z : py_int (padded a b (dec_Z z)) = Ok z.
Proof. apply py_int_dec; apply padded_spaces. Qed.

Lemma strip_padded a b z : py_strip (padded a b (dec_Z z)) = dec_Z z.
Proof. apply strip_pad; try apply padded_spaces. apply dec_Z_no_space. Qed.

Lemma strip_padded_empty a b : py_strip (padded a b []) = [].
Proof. apply strip_pad; try apply padded_spaces. reflexivity. Qed.

Lemma py_int_dec0 z : py_int (dec_Z z) = Ok z.
Proof. rewrite <- (app_nil_r (dec_Z z)). exact (py_int_dec [] z [] eq_refl eq_refl). Qed.

Lemma dec_Z_not_empty z : is_empty (dec_Z z) = false.
Proof.
  assert (forall n, is_empty (dec n) = false) as H.
  { intros n. destruct (dec_cons n) as (d & r & -> & _). reflexivity. }
  destruct z; cbn [dec_Z]; auto.
Qed.

Lemma padded_chars a b s c : In c (padded a b s) -> c = 32%N \/ In c s.
Proof.
  unfold padded. rewrite !in_app_iff. intros [H|[H|H]]; auto;
    apply repeat_spec in H; auto.
Qed.

(** Characters of the numbers and their padding are no separators. *)
Lemma padded_no_sep sep a b s :
  (sep = 58 \/ sep = 44 \/ sep = 59)%N ->
  (forall c, In c s -> is_digit c = true \/ c = 45%N) ->
  forallb (fun x => negb (sep =? x)%N) (padded a b s) = true.
Proof.
  intros Hsep Hs. apply forallb_forall. intros x Hx. apply padded_chars in Hx.
  apply negb_true_iff, N.eqb_neq. destruct Hx as [->|Hx].
  - destruct Hsep as [-> | [-> | ->]]; discriminate.
  - apply Hs in Hx. unfold is_digit in Hx. lia.
Qed.

(** An optional first bound: blank means 0. *)
Definition opt_text (o : option Z) : str := match o with Some z => dec_Z z | None => [] end.

Lemma opt_text_chars o c : In c (opt_text o) -> is_digit c = true \/ c = 45%N.
Proof. destruct o; cbn; [apply dec_Z_chars|tauto]. Qed.

Definition pad (p : nat * nat) (s : str) : str := padded (fst p) (snd p) s.

Lemma pad_opt_no_sep sep p o : (sep = 58 \/ sep = 44 \/ sep = 59)%N ->
  forallb (fun x => negb (sep =? x)%N) (pad p (opt_text o)) = true.
Proof. intros H. apply padded_no_sep; [exact H|]. apply opt_text_chars. Qed.
Lemma pad_dec_no_sep sep p z : (sep = 58 \/ sep = 44 \/ sep = 59)%N ->
  forallb (fun x => negb (sep =? x)%N) (pad p (dec_Z z)) = true.
Proof. intros H. apply padded_no_sep; [exact H|]. intros c Hc. eapply dec_Z_chars, Hc. Qed.

(** Items of a range string, with the spaces the user may write. *)
Inductive item :=
| Single (p : nat * nat) (i : Z)
| Span (p q : nat * nat) (a : option Z) (b : Z)
| SpanStep (p q s : nat * nat) (a : option Z) (b c : Z).

Definition default (o : option Z) (d : Z) : Z := match o with Some z => z | None => d end.

Definition render_item (it : item) : str :=
  match it with
  | Single p i => pad p (dec_Z i)
  | Span p q a b => join 58 [pad p (opt_text a); pad q (dec_Z b)]
  | SpanStep p q s a b c => join 58 [pad p (opt_text a); pad q (dec_Z b); pad s (dec_Z c)]
  end.
Definition render (its : list item) : str := join 44 (map render_item its).

Definition valid_item (it : item) : Prop :=
  match it with SpanStep _ _ _ _ _ c => c <> 0 | _ => True end.

(** Meaning of an item. *)
Definition in_item (it : item) (n : Z) : Prop :=
  match it with
  | Single _ i => n = i
  | Span _ _ a b => default a 0 <= n < b
  | SpanStep _ _ _ a b c => in_progression (default a 0) b c n
  end.

Definition item_range (it : item) : range :=
  match it with
  | Single _ i => mkRange i (i + 1) 1
  | Span _ _ a b => mkRange (default a 0) b 1
  | SpanStep _ _ _ a b c => mkRange (default a 0) b c
  end.

Lemma opt_first p a :
  (if is_empty (py_strip (pad p (opt_text a))) then Ok 0
   else py_int (py_strip (pad p (opt_text a)))) = Ok (default a 0).
Proof.
  unfold pad. destruct a as [z|]; cbn [opt_text default].
  - rewrite strip_padded, dec_Z_not_empty, py_int_dec0. reflexivity.
  - rewrite strip_padded_empty. reflexivity.
Qed.

Lemma parse_item it : valid_item it -> parse_range_part (render_item it) = Ok (item_range it).
Proof.
  intros Hv. unfold parse_range_part. destruct it as [p i|p q a b|p q s a b c]; cbn [render_item].
  - unfold split_on. rewrite split_by_none.
    2:{ apply pad_dec_no_sep; auto. }
    unfold pad. rewrite strip_padded, py_int_dec0. reflexivity.
  - rewrite split_join; [|discriminate|].
    2:{ cbn [forallb]. rewrite pad_opt_no_sep, !pad_dec_no_sep by auto. reflexivity. }
    cbv zeta. rewrite opt_first. cbn [bind].
    unfold pad. rewrite strip_padded, py_int_dec0. reflexivity.
  - rewrite split_join; [|discriminate|].
    2:{ cbn [forallb]. rewrite pad_opt_no_sep, !pad_dec_no_sep by auto. reflexivity. }
    cbv zeta. rewrite opt_first. cbn [bind].
    unfold pad. rewrite !strip_padded, !py_int_dec0. cbn [bind py_range].
    cbn in Hv. apply Z.eqb_neq in Hv. rewrite Hv. reflexivity.
Qed.

Lemma render_item_no_comma it : forallb (fun x => negb (44 =? x)%N) (render_item it) = true.
Proof.
  destruct it as [p i|p q a b|p q s a b c]; cbn [render_item join];
    rewrite ?forallb_app; cbn [forallb]; rewrite ?forallb_app; cbn [forallb];
    rewrite ?pad_opt_no_sep, ?pad_dec_no_sep by auto; reflexivity.
Qed.

Lemma mapM_ok {A B} (f : A -> res B) (g : A -> B) l :
  (forall x, In x l -> f x = Ok (g x)) -> mapM f l = Ok (map g l).
Proof.
  induction l as [|x l IH]; intros H; cbn [mapM map]; [reflexivity|].
  rewrite (H x) by (left; reflexivity). cbn [bind].
  rewrite IH by (intros y Hy; apply H; now right). reflexivity.
Qed.

Theorem parse_render its : its <> [] -> (forall it, In it its -> valid_item it) ->
  parse_range_string (render its) = Ok (map item_range its).
Proof.
  intros Hne Hv. unfold parse_range_string, render.
  rewrite split_join.
  - assert (mapM parse_range_part (map render_item its) = Ok (map item_range its)) as H.
    { clear Hne. induction its as [|it its IH]; cbn [map mapM]; [reflexivity|].
      rewrite parse_item by (apply Hv; now left). cbn [bind].
      rewrite IH by (intros x Hx; apply Hv; now right). reflexivity. }
    exact H.
  - destruct its; [congruence|discriminate].
  - apply forallb_forall. intros s Hs. apply in_map_iff in Hs as (it & <- & _).
    apply render_item_no_comma.
Qed.

Lemma item_range_mem it n : valid_item it ->
  range_mem (item_range it) n = true <-> in_item it n.
Proof.
  intros Hv. destruct it; cbn [item_range in_item].
  - rewrite range_mem_spec by lia. unfold in_progression. split.
    + intros (k & H1 & -> & H2 & _). lia.
    + intros ->. exists 0. lia.
  - rewrite range_mem_spec by lia. unfold in_progression. split.
    + intros (k & H1 & -> & H2 & _). lia.
    + intros H. exists (n - default a 0). lia.
  - apply range_mem_spec, Hv.
Qed.

Theorem range_string_member its : its <> [] -> (forall it, In it its -> valid_item it) ->
  exists m, parse_range_string (render its) = Ok m /\
    forall n, mr_mem m n = true <-> exists it, In it its /\ in_item it n.
Proof.
  intros Hne Hv. exists (map item_range its). split; [now apply parse_render|].
  intros n. unfold mr_mem. rewrite existsb_exists. split.
  - intros (r & Hr & Hm). apply in_map_iff in Hr as (it & <- & Hin).
    exists it. split; [exact Hin|]. apply item_range_mem; auto.
  - intros (it & Hin & Hm). exists (item_range it). split; [now apply in_map|].
    apply item_range_mem; auto.
Qed.

(** Nothing malformed is accepted: an accepted string splits into parts that
    are each one integer or two or three bounds with a non-zero step. *)
Definition wellformed_part (part : str) : Prop :=
  (exists i, split_on 58 part = [part] /\ py_int (py_strip part) = Ok i) \/
  (exists p0 p1 rest b, split_on 58 part = p0 :: p1 :: rest /\
     (py_strip p0 = [] \/ exists a, py_int (py_strip p0) = Ok a) /\
     py_int (py_strip p1) = Ok b /\
     (rest = [] \/ exists p2 c, rest = [p2] /\ py_int (py_strip p2) = Ok c /\ c <> 0)).

Lemma mapM_inv {A B} (f : A -> res B) l ys : mapM f l = Ok ys ->
  forall x, In x l -> exists y, f x = Ok y.
Proof.
  revert ys. induction l as [|x l IH]; intros ys H y Hy; [destruct Hy|].
  cbn [mapM] in H. destruct (f x) as [z|] eqn:E; [|discriminate]. cbn [bind] in H.
  destruct (mapM f l) as [zs|] eqn:E2; [|discriminate].
  destruct Hy as [<-|Hy]; [eauto|]. eapply IH; [reflexivity|exact Hy].
Qed.

Lemma split_single c s p : split_on c s = [p] -> p = s.
Proof. intros H. rewrite <- (split_join_inv c s), H. reflexivity. Qed.

Theorem range_string_strict s m : parse_range_string s = Ok m ->
  forall part, In part (split_on 44 s) -> wellformed_part part.
Proof.
  intros H part Hin. destruct (mapM_inv _ _ _ H part Hin) as [r Hr].
  unfold parse_range_part in Hr.
  destruct (split_on 58 part) as [|p0 [|p1 rest]] eqn:Es; [discriminate| |].
  - apply split_single in Es as Ep. subst p0. left.
    destruct (py_int (py_strip part)) as [i|] eqn:Ei; [|discriminate]. eauto.
  - right. cbv zeta in Hr.
    destruct (if is_empty (py_strip p0) then Ok 0 else py_int (py_strip p0)) as [a|] eqn:Ea;
      [|discriminate]. cbn [bind] in Hr.
    destruct (py_int (py_strip p1)) as [b|] eqn:Eb; [|discriminate]. cbn [bind] in Hr.
    exists p0, p1, rest, b. repeat split; auto.
    + destruct (py_strip p0) eqn:E0; [auto|]. cbn [is_empty] in Ea. eauto.
    + destruct rest as [|p2 [|p3 rest]]; [auto| |].
      * right. destruct (py_int (py_strip p2)) as [c|] eqn:Ec; [|discriminate]. cbn [bind] in Hr.
        exists p2, c. repeat split; auto. cbn [py_range] in Hr.
        destruct (c =? 0) eqn:Ez; [discriminate|]. lia.
      * destruct (py_int (py_strip p2)); discriminate.
Qed.

(** ** Table positions *)

(** Specification: the indexes python's slice [a:b:c], [c > 0], selects in a
    sequence of length [n] (language reference, sections 3.3.1 and 6.3.3). *)
Definition clamp (n i : Z) : Z :=
  let j := if i <? 0 then i + n else i in Z.max 0 (Z.min n j).
Definition slice_selects (a b : option Z) (c n i : Z) : Prop :=
  let lo := match a with Some x => clamp n x | None => 0 end in
  let hi := match b with Some x => clamp n x | None => n end in
  in_progression lo hi c i.

(** One dimension of a position: nothing, a comma list, a slice. *)
Inductive dim :=
| DAll
| DList (l : list ((nat * nat) * Z))
| DSlice (p q : nat * nat) (a b : option Z)
| DStep (p q s : nat * nat) (a b c : option Z).

Definition render_dim (d : dim) : str :=
  match d with
  | DAll => []
  | DList l => join 44 (map (fun x => pad (fst x) (dec_Z (snd x))) l)
  | DSlice p q a b => join 58 [pad p (opt_text a); pad q (opt_text b)]
  | DStep p q s a b c => join 58 [pad p (opt_text a); pad q (opt_text b); pad s (opt_text c)]
  end.

Definition in_dim (d : dim) (n i : Z) : Prop :=
  match d with
  | DAll => True
  | DList l => exists x, In x l /\ i = (if snd x <? 0 then n + snd x else snd x)
  | DSlice _ _ a b => slice_selects a b 1 n i
  | DStep _ _ _ a b c => slice_selects a b (default c 1) n i
  end.

(** The slices for which the code agrees with python: any bounds when the step
    is 1, a start within the sequence when the step is larger. *)
Definition valid_dim (d : dim) (n : Z) : Prop :=
  match d with
  | DList l => l <> []
  | DStep _ _ _ a _ c => 0 < default c 1 /\
      (default c 1 = 1 \/ match a with Some x => - n <= x | None => True end)
  | _ => True
  end.

Lemma opt_bound p a d :
  (if is_empty (py_strip (pad p (opt_text a))) then Ok d
   else py_int (pad p (opt_text a))) = Ok (default a d).
Proof.
  unfold pad. destruct a as [z|]; cbn [opt_text default].
  - rewrite strip_padded, dec_Z_not_empty, py_int_padded. reflexivity.
  - rewrite strip_padded_empty. reflexivity.
Qed.

Lemma existsb_colon_join x y l : existsb (N.eqb 58) (join 58 (x :: y :: l)) = true.
Proof.
  change (join 58 (x :: y :: l)) with (x ++ 58%N :: join 58 (y :: l)).
  rewrite existsb_app. cbn [existsb]. rewrite orb_true_r. reflexivity.
Qed.

Lemma join_not_empty x y l : is_empty (join 58 (x :: y :: l)) = false.
Proof. change (join 58 (x :: y :: l)) with (x ++ 58%N :: join 58 (y :: l)). destruct x; reflexivity. Qed.

Lemma slice_agree a b c n i : 0 <= n -> 0 <= i < n -> 0 < c ->
  (c = 1 \/ match a with Some x => - n <= x | None => True end) ->
  in_progression (if 0 <=? default a 0 then default a 0 else n + default a 0)
                 (if 0 <=? default b n then default b n else n + default b n) c i
  <-> slice_selects a b c n i.
Proof.
  intros Hn Hi Hc Ha. unfold slice_selects, in_progression.
  assert (Hb : i < (if 0 <=? default b n then default b n else n + default b n) <->
               i < match b with Some x => clamp n x | None => n end).
  { unfold clamp, default. cbv zeta. destruct b as [x|]; cases_if; lia. }
  assert (Ha1 : match a with Some x => clamp n x | None => 0 end =
                Z.max 0 (Z.min n (if 0 <=? default a 0 then default a 0 else n + default a 0))).
  { unfold clamp, default. cbv zeta. destruct a as [x|]; cases_if; lia. }
  rewrite Ha1. set (s := if 0 <=? default a 0 then default a 0 else n + default a 0) in *.
  assert (Hs : c = 1 \/ 0 <= s) by (unfold s, default in *; destruct a; cases_if; lia).
  set (hi := if 0 <=? default b n then default b n else n + default b n) in *.
  set (hi' := match b with Some x => clamp n x | None => n end) in *.
  split; intros (k & H1 & H2 & H3 & H4).
  - destruct Hs as [->|Hs].
    + exists (i - Z.max 0 (Z.min n s)). repeat split; try lia.
    + assert (s <= n) by nia. replace (Z.max 0 (Z.min n s)) with s by lia.
      exists k. repeat split; try lia.
  - destruct Hs as [->|Hs].
    + exists (i - s). repeat split; try lia.
    + destruct (Z_le_gt_dec s n) as [Hsn|Hsn].
      * replace (Z.max 0 (Z.min n s)) with s in H2 by lia. exists k. repeat split; try lia.
      * exfalso. replace (Z.max 0 (Z.min n s)) with n in H2 by lia. nia.
Qed.

Theorem table_range_spec d n : 0 <= n -> valid_dim d n ->
  exists l, table_range (render_dim d) n = Ok l /\
    forall i, 0 <= i < n -> (In i l <-> in_dim d n i).
Proof.
  intros Hn Hv. destruct d as [|l|p q a b|p q s a b c].
  - cbn [render_dim]. exists (range_list (mkRange 0 n 1)). split.
    + unfold table_range. cbn [is_empty].
      change (existsb (N.eqb 58) (lit ":")) with true. cbv iota.
      change (split_on 58 (lit ":")) with [@nil N; @nil N]. cbv iota.
      change (is_empty (py_strip [])) with true. cbv iota. cbn [bind].
      change (0 <=? 0) with true. replace (0 <=? n) with true by lia. reflexivity.
    + intros i Hi. rewrite range_list_spec by lia. cbn [in_dim]. split; [auto|].
      intros _. exists i. lia.
  - cbn [valid_dim] in Hv. cbn [render_dim].
    set (f := fun x : nat * nat * Z => pad (fst x) (dec_Z (snd x))).
    assert (Hsep : forall x, In x l -> forallb (fun c => negb (44 =? c)%N) (f x) = true).
    { intros x _. apply padded_no_sep; [auto|]. intros c Hc. eapply dec_Z_chars, Hc. }
    assert (Hcol : forall x, In x l -> forallb (fun c => negb (58 =? c)%N) (f x) = true).
    { intros x _. apply padded_no_sep; [auto|]. intros c Hc. eapply dec_Z_chars, Hc. }
    assert (Hne : is_empty (join 44 (map f l)) = false).
    { destruct l as [|x l]; [congruence|]. destruct l as [|y l].
      - cbn [map join]. unfold f, pad, padded. destruct (repeat 32%N (fst (fst x))); [|reflexivity].
        cbn [app]. pose proof (dec_Z_not_empty (snd x)). destruct (dec_Z (snd x)); [discriminate|reflexivity].
      - cbn [map]. change (join 44 (f x :: f y :: map f l)) with (f x ++ 44%N :: join 44 (f y :: map f l)).
        destruct (f x); reflexivity. }
    assert (Hnc : existsb (N.eqb 58) (join 44 (map f l)) = false).
    { clear Hne Hv Hsep. induction l as [|x l IH]; [reflexivity|].
      assert (existsb (N.eqb 58) (f x) = false) as Hx.
      { specialize (Hcol x (or_introl eq_refl)). rewrite forallb_forall in Hcol.
        apply not_true_iff_false. intros Hc. apply existsb_exists in Hc as (c & Hin & Hc).
        specialize (Hcol c Hin). rewrite Hc in Hcol. discriminate. }
      destruct l as [|y l]; [exact Hx|].
      cbn [map]. change (join 44 (f x :: f y :: map f l)) with (f x ++ 44%N :: join 44 (map f (y :: l))).
      rewrite existsb_app, Hx. cbn [existsb orb]. apply IH. intros z Hz. apply Hcol. now right. }
    exists (map (fun x : nat * nat * Z => if snd x <? 0 then n + snd x else snd x) l). split.
    + unfold table_range. rewrite Hne, Hnc. rewrite split_join.
      * clear Hne Hv Hsep Hcol Hnc. induction l as [|x l IH]; cbn [map mapM]; [reflexivity|].
        unfold f at 1. unfold pad. rewrite py_int_padded. cbn [bind].
        rewrite IH. reflexivity.
      * destruct l; [congruence|discriminate].
      * apply forallb_forall. intros s Hs. apply in_map_iff in Hs as (x & <- & Hin). auto.
    + intros i Hi. rewrite in_map_iff. cbn [in_dim]. split.
      * intros (x & <- & Hin). eauto.
      * intros (x & Hin & ->). eauto.
  - cbn [render_dim]. unfold table_range. rewrite join_not_empty, existsb_colon_join.
    rewrite split_join; [|discriminate|].
    2:{ cbn [forallb]. rewrite !pad_opt_no_sep by auto. reflexivity. }
    rewrite !opt_bound. cbn [bind py_range]. eexists. split; [reflexivity|].
    intros i Hi. rewrite range_list_spec by lia. cbn [in_dim]. apply slice_agree; lia.
  - cbn [render_dim]. unfold table_range. rewrite join_not_empty, existsb_colon_join.
    rewrite split_join; [|discriminate|].
    2:{ cbn [forallb]. rewrite !pad_opt_no_sep by auto. reflexivity. }
    rewrite !opt_bound. cbn [bind py_range]. cbn [valid_dim] in Hv.
    destruct (default c 1 =? 0) eqn:E; [lia|]. cbn [bind].
    eexists. split; [reflexivity|].
    intros i Hi. rewrite range_list_spec by lia. cbn [in_dim]. apply slice_agree; tauto || lia.
Qed.

Lemma render_dim_no_semi d : forallb (fun x => negb (59 =? x)%N) (render_dim d) = true.
Proof.
  assert (forall c l, c <> 59%N -> (forall s, In s l -> forallb (fun x => negb (59 =? x)%N) s = true) ->
     forallb (fun x => negb (59 =? x)%N) (join c l) = true) as Hj.
  { intros c l Hc Hl. induction l as [|x l IH]; [reflexivity|].
    destruct l as [|y l]; [apply Hl; now left|].
    change (join c (x :: y :: l)) with (x ++ c :: join c (y :: l)).
    rewrite forallb_app. cbn [forallb]. rewrite (Hl x) by now left.
    rewrite IH by (intros s Hs; apply Hl; now right).
    cbn [andb]. rewrite andb_true_r. apply negb_true_iff, N.eqb_neq. congruence. }
  assert (forall p o, forallb (fun x => negb (59 =? x)%N) (pad p (opt_text o)) = true) as Hp.
  { intros p o. apply padded_no_sep; auto. apply opt_text_chars. }
  destruct d as [|l|p q a b|p q s a b c]; cbn [render_dim]; [reflexivity| | |].
  - apply Hj; [discriminate|]. intros s Hs. apply in_map_iff in Hs as (x & <- & _).
    apply (Hp (fst x) (Some (snd x))).
  - apply Hj; [discriminate|]. intros t [<-|[<-|[]]]; apply Hp.
  - apply Hj; [discriminate|]. intros t [<-|[<-|[<-|[]]]]; apply Hp.
Qed.

Theorem pos_string_spec d0 d1 n0 n1 : 0 <= n0 -> 0 <= n1 -> valid_dim d0 n0 -> valid_dim d1 n1 ->
  exists l, parse_pos_string (join 59 [render_dim d0; render_dim d1]) (n0, n1) = Ok l /\
    forall i j, 0 <= i < n0 -> 0 <= j < n1 ->
      (In (i, j) l <-> in_dim d0 n0 i /\ in_dim d1 n1 j).
Proof.
  intros H0 H1 V0 V1.
  destruct (table_range_spec d0 n0 H0 V0) as (l0 & E0 & S0).
  destruct (table_range_spec d1 n1 H1 V1) as (l1 & E1 & S1).
  exists (list_prod l0 l1). split.
  - unfold parse_pos_string. rewrite split_join; [|discriminate|].
    2:{ cbn [forallb]. now rewrite !render_dim_no_semi. }
    cbn [fst snd]. rewrite E0, E1. reflexivity.
  - intros i j Hi Hj. rewrite in_prod_iff, S0, S1 by assumption. reflexivity.
Qed.

Theorem pos_string_one_dim d0 n0 n1 : 0 <= n0 -> 0 <= n1 -> valid_dim d0 n0 ->
  exists l, parse_pos_string (render_dim d0) (n0, n1) = Ok l /\
    forall i j, 0 <= i < n0 -> 0 <= j < n1 -> (In (i, j) l <-> in_dim d0 n0 i).
Proof.
  intros H0 H1 V0.
  destruct (table_range_spec d0 n0 H0 V0) as (l0 & E0 & S0).
  destruct (table_range_spec (DSlice (0, 0)%nat (0, 0)%nat None None) n1 H1 I) as (l1 & E1 & S1).
  exists (list_prod l0 l1). split.
  - unfold parse_pos_string. unfold split_on.
    rewrite split_by_none by apply render_dim_no_semi.
    cbn [fst snd]. rewrite E0. cbn [bind].
    change (lit ":") with (render_dim (DSlice (0, 0)%nat (0, 0)%nat None None)).
    rewrite E1. reflexivity.
  - intros i j Hi Hj. rewrite in_prod_iff, S0, S1 by assumption. cbn [in_dim]. split; [tauto|].
    intros H. split; [exact H|]. unfold slice_selects, in_progression. exists j. lia.
Qed.
