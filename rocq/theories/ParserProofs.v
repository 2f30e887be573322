(** Proofs about the serializer: what is written reads back. *)
From Verif Require Import Py PdfSyntax Parser Denote.
From Coq Require Import String.
Open Scope N_scope.
Open Scope list_scope.

(** ** Character facts *)

Lemma digit_regular c : is_digit c = true -> is_regular c = true.
Proof.
  unfold is_digit. rewrite andb_true_iff, !N.leb_le. intros H.
  assert (c = 48 \/ c = 49 \/ c = 50 \/ c = 51 \/ c = 52 \/ c = 53 \/ c = 54
          \/ c = 55 \/ c = 56 \/ c = 57) as Hc by lia.
  repeat (destruct Hc as [->|Hc]; [reflexivity|]). subst; reflexivity.
Qed.

Lemma regular_not c d : is_regular c = true -> is_regular d = false -> c <> d.
Proof. intros H1 H2 ->. congruence. Qed.

Lemma regular_neqb c d : is_regular c = true -> is_regular d = false -> (c =? d) = false.
Proof. intros H1 H2. apply N.eqb_neq. eapply regular_not; eauto. Qed.

Lemma regular_white c : is_regular c = true -> is_white c = false.
Proof. unfold is_regular. destruct (is_white c); [discriminate|auto]. Qed.

Lemma skip_ws_regular c r : is_white c = false -> c <> 37 -> skip_ws false (c :: r) = c :: r.
Proof.
  intros H1 H2. cbn [skip_ws]. rewrite H1.
  destruct (c =? 37) eqn:E; [apply N.eqb_eq in E; congruence|reflexivity].
Qed.

Lemma skip_ws_space r : skip_ws false (32 :: r) = skip_ws false r.
Proof. reflexivity. Qed.

(** What may follow an object: not a regular character, not the end of a
    reference, and not a token R. *)
Definition head_stop (r : bytes) : Prop :=
  match r with [] => True | c :: _ => is_regular c = false end.
Definition not_R (l : bytes) : Prop :=
  fst (span is_regular (skip_ws false l)) <> lit "R".
Definition ok_rest (r : bytes) : Prop :=
  head_stop r /\ ref_tail r = None /\ not_R r.

Definition good_head (b : bytes) : Prop :=
  exists c r, b = c :: r /\ is_white c = false /\ c <> 37 /\ c <> 82.

Lemma good_head_not_R b rest : good_head b -> not_R (b ++ rest).
Proof.
  intros (c & r & -> & Hw & Hp & HR). unfold not_R. cbn [app].
  rewrite skip_ws_regular by assumption. cbn [span].
  destruct (is_regular c).
  - destruct (span is_regular (r ++ rest)) as [a b]. cbn. congruence.
  - cbn. discriminate.
Qed.

Lemma ref_tail_space l : ref_tail (32 :: l) = ref_tail l.
Proof. reflexivity. Qed.

Lemma not_R_space l : not_R l -> not_R (32 :: l).
Proof. exact (fun H => H). Qed.

Lemma ref_tail_delim c r : is_white c = false -> c <> 37 -> is_regular c = false ->
  ref_tail (c :: r) = None.
Proof.
  intros H1 H2 H3. unfold ref_tail. rewrite skip_ws_regular by assumption.
  cbn [span]. rewrite H3. reflexivity.
Qed.

Lemma span_regular_tok t rest :
  forallb is_regular t = true -> head_stop rest -> span is_regular (t ++ rest) = (t, rest).
Proof. intros H1 H2. apply span_app_all; assumption. Qed.

Lemma tok_skip t rest : forallb is_regular t = true -> t <> [] ->
  skip_ws false (t ++ rest) = t ++ rest.
Proof.
  destruct t as [|c t]; [congruence|]. cbn [forallb app]. rewrite andb_true_iff.
  intros [H _] _. apply skip_ws_regular; [now apply regular_white|].
  eapply regular_not; eauto.
Qed.

Lemma ref_tail_tok t rest :
  forallb is_regular t = true -> t <> [] -> head_stop rest -> not_R rest ->
  ref_tail (t ++ rest) = None.
Proof.
  intros H1 H2 H3 H4. unfold ref_tail.
  rewrite tok_skip, span_regular_tok by assumption.
  destruct (all_digits t); [|reflexivity].
  unfold not_R in H4. destruct (span is_regular (skip_ws false rest)) as [t2 r2].
  cbn [fst] in H4. apply str_eqb_neq in H4. now rewrite H4.
Qed.

(** ** Reading one token *)

Lemma neq_false a b : a <> b -> (a =? b) = false.
Proof. apply N.eqb_neq. Qed.

(** Reading a regular token. *)
Lemma read_obj_token f t rest :
  forallb is_regular t = true -> t <> [] -> head_stop rest ->
  read_obj (S f) (t ++ rest) =
    if str_eqb t (lit "true") then Some (VBool true, rest)
    else if str_eqb t (lit "false") then Some (VBool false, rest)
    else if str_eqb t (lit "null") then Some (VNull, rest)
    else match int_token t with
         | Some z =>
             if all_digits t then
               match ref_tail rest with
               | Some (g, r'') => Some (VRef (val10 t) g, r'')
               | None => Some (VInt z, rest)
               end
             else Some (VInt z, rest)
         | None => if real_token t then Some (VReal t, rest) else None
         end.
Proof.
  intros H1 H2 H3. cbn [read_obj].
  rewrite tok_skip by assumption.
  pose proof (span_regular_tok t rest H1 H3) as Hs.
  destruct t as [|c t]; [congruence|].
  cbn [forallb] in H1. apply andb_true_iff in H1 as [Hc _].
  cbn [app] in *.
  rewrite !(regular_neqb c) by (auto; reflexivity).
  rewrite Hs. reflexivity.
Qed.

Lemma digits_regular t : forallb is_digit t = true -> forallb is_regular t = true.
Proof. rewrite !forallb_forall. intros H x Hx. apply digit_regular; auto. Qed.

Lemma digits_neq_letter d t s x : is_digit d = true -> is_digit x = false ->
  str_eqb (d :: t) (x :: s) = false.
Proof.
  intros H1 H2. cbn [str_eqb]. destruct (d =? x) eqn:E; [|reflexivity].
  apply N.eqb_eq in E; subst; congruence.
Qed.

Lemma unsign_digit d t : is_digit d = true -> unsign (d :: t) = (false, d :: t).
Proof.
  intros H. unfold unsign.
  destruct (d =? 45) eqn:E; [apply N.eqb_eq in E; subst; discriminate|].
  destruct (d =? 43) eqn:E2; [apply N.eqb_eq in E2; subst; discriminate|reflexivity].
Qed.

Lemma read_dec f n rest : head_stop rest ->
  read_obj (S f) (dec n ++ rest) =
    match ref_tail rest with
    | Some (g, r'') => Some (VRef n g, r'')
    | None => Some (VInt (Z.of_N n), rest)
    end.
Proof.
  intros H. rewrite read_obj_token;
    [|apply digits_regular, dec_digits|apply dec_nonempty|exact H].
  destruct (dec_cons n) as (d & t & E & Hd & Ht).
  assert (Hall : all_digits (dec n) = true).
  { unfold all_digits. rewrite dec_digits, E. reflexivity. }
  assert (Hv : val10 (dec n) = n) by apply dec_val.
  assert (Hint : int_token (dec n) = Some (Z.of_N n)).
  { unfold int_token. rewrite E, unsign_digit by assumption. rewrite <- E, Hall, Hv.
    reflexivity. }
  rewrite Hint, Hall, Hv, E.
  change (lit "true") with (116 :: lit "rue"). change (lit "false") with (102 :: lit "alse").
  change (lit "null") with (110 :: lit "ull").
  rewrite !digits_neq_letter by (auto; reflexivity). reflexivity.
Qed.

Lemma read_neg f n rest : head_stop rest ->
  read_obj (S f) (45 :: dec n ++ rest) = Some (VInt (- Z.of_N n), rest).
Proof.
  intros H. change (45 :: dec n ++ rest) with ((45 :: dec n) ++ rest).
  rewrite read_obj_token; [| |discriminate|exact H].
  2:{ cbn [forallb]. apply digits_regular, dec_digits. }
  assert (Hall : all_digits (dec n) = true).
  { unfold all_digits. rewrite dec_digits.
    destruct (dec_cons n) as (d & t & -> & _). reflexivity. }
  assert (Hint : int_token (45 :: dec n) = Some (- Z.of_N n)%Z).
  { unfold int_token. cbn [unsign]. change (45 =? 45) with true. cbv iota.
    rewrite Hall, dec_val. reflexivity. }
  rewrite Hint.
  change (str_eqb (45 :: dec n) (lit "true")) with false.
  change (str_eqb (45 :: dec n) (lit "false")) with false.
  change (str_eqb (45 :: dec n) (lit "null")) with false. cbv iota.
  change (all_digits (45 :: dec n)) with false. reflexivity.
Qed.

(** ** Literal strings *)

Lemma read_lit_escaped s rest :
  plain_text s = true -> read_lit 0 (escape_parens s ++ 41 :: rest) = Some (s, rest).
Proof.
  unfold plain_text. induction s as [|c s IH]; [reflexivity|].
  cbn [forallb]. rewrite !andb_true_iff, !negb_true_iff.
  intros [[[Hc H92] H13] Hs]. specialize (IH Hs).
  cbn [escape_parens]. destruct ((c =? 40) || (c =? 41)) eqn:E.
  - cbn [app read_lit]. change (92 =? 40) with false. change (92 =? 41) with false.
    change (92 =? 13) with false. change (92 =? 92) with true. cbv iota.
    apply orb_true_iff in E as [E|E]; apply N.eqb_eq in E; subst c;
      cbn [N.eqb Pos.eqb is_octal N.leb N.compare Pos.compare Pos.compare_cont andb];
      rewrite IH; reflexivity.
  - apply orb_false_iff in E as [E1 E2].
    cbn [app read_lit]. rewrite E1, E2, H13, H92, IH. reflexivity.
Qed.

Lemma escape_parens_latin s : forallb (fun c => c <? 256) s = true ->
  forallb (fun c => c <? 256) (escape_parens s) = true.
Proof.
  induction s as [|c s IH]; [reflexivity|]. cbn [forallb escape_parens].
  rewrite andb_true_iff. intros [H1 H2].
  destruct ((c =? 40) || (c =? 41)); cbn [forallb]; rewrite H1, IH by assumption;
    reflexivity.
Qed.

Lemma plain_text_latin s : plain_text s = true -> forallb (fun c => c <? 256) s = true.
Proof.
  unfold plain_text. rewrite !forallb_forall. intros H x Hx. specialize (H x Hx).
  apply andb_true_iff in H as [H _]. apply andb_true_iff in H as [H _]. exact H.
Qed.

(** ** Names *)

Lemma decode_plain n : plain_name n = true -> decode_name n = Some n.
Proof.
  unfold plain_name. induction n as [|c n IH]; [reflexivity|].
  cbn [forallb decode_name]. rewrite !andb_true_iff, negb_true_iff.
  intros [[[_ H] _] Hn]. now rewrite H, IH.
Qed.

Lemma plain_name_regular n : plain_name n = true -> forallb is_regular n = true.
Proof.
  unfold plain_name. rewrite !forallb_forall. intros H x Hx. specialize (H x Hx).
  apply andb_true_iff in H as [H _]. apply andb_true_iff in H as [H _]. exact H.
Qed.

Lemma plain_name_latin n : plain_name n = true -> forallb (fun c => c <? 256) n = true.
Proof.
  unfold plain_name. rewrite !forallb_forall. intros H x Hx. specialize (H x Hx).
  apply andb_true_iff in H as [_ H]. exact H.
Qed.

(** ** Hexadecimal strings *)

Lemma is_hex_not c : is_hex c = true -> (c =? 62) = false /\ is_white c = false /\ (c =? 60) = false.
Proof.
  unfold is_hex, hex_val, is_digit. intros H.
  destruct ((48 <=? c) && (c <=? 57)) eqn:E1;
  [|destruct ((97 <=? c) && (c <=? 102)) eqn:E2;
    [|destruct ((65 <=? c) && (c <=? 70)) eqn:E3; [|discriminate]]].
  all: match goal with H : _ && _ = true |- _ =>
      apply andb_true_iff in H as [Ha Hb]; apply N.leb_le in Ha, Hb end.
  all: repeat split; try (apply N.eqb_neq; lia).
  all: unfold is_white; cbn [existsb];
    rewrite !(proj2 (N.eqb_neq c _)) by lia; reflexivity.
Qed.

Lemma read_hex_ok_aux k h rest : (List.length h <= k)%nat ->
  forallb is_hex h = true -> read_hex None (h ++ 62 :: rest) = Some (hex_bytes h, rest).
Proof.
  revert h; induction k as [|k IH]; intros h Hk Hh.
  - destruct h; [reflexivity|cbn in Hk; lia].
  - destruct h as [|a [|b r]].
    + reflexivity.
    + cbn [forallb] in Hh. rewrite andb_true_r in Hh.
      destruct (is_hex_not a Hh) as (H1 & H2 & _).
      cbn [app read_hex]. rewrite H1, H2.
      unfold is_hex in Hh. cbn [hex_bytes]. destruct (hex_val a) as [x|]; [|discriminate].
      reflexivity.
    + cbn [forallb] in Hh. apply andb_true_iff in Hh as [Ha Hh].
      apply andb_true_iff in Hh as [Hb Hr].
      destruct (is_hex_not a Ha) as (H1 & H2 & _).
      destruct (is_hex_not b Hb) as (H3 & H4 & _).
      cbn [app read_hex]. rewrite H1, H2, H3, H4.
      unfold is_hex in Ha, Hb. cbn [hex_bytes].
      destruct (hex_val a) as [x|]; [|discriminate].
      destruct (hex_val b) as [y|]; [|discriminate].
      rewrite IH; [reflexivity| |assumption]. cbn in Hk. lia.
Qed.

(** ** The round trip *)

Section RoundTrip.
Variable flate : bytes -> bytes.
Notation parse_obj := (parse_obj flate).

(** What the induction proves of one object. *)
Definition written_ok (o : obj) (v : pval) : Prop :=
  exists b, parse_obj o = (Ok b, o) /\ good_head b /\
    (forall rest, head_stop rest -> not_R rest -> ref_tail (b ++ rest) = None) /\
    (forall rest, ok_rest rest -> reads (b ++ rest) v rest).

Lemma written_token t o v :
  parse_obj o = (Ok t, o) -> forallb is_regular t = true -> t <> [] ->
  hd 0 t <> 82 ->
  (forall f rest, ok_rest rest -> read_obj (S f) (t ++ rest) = Some (v, rest)) ->
  written_ok o v.
Proof.
  intros Hp Hr Hne HR Hread. exists t. repeat split.
  - exact Hp.
  - destruct t as [|c t]; [congruence|]. exists c, t. split; [reflexivity|].
    cbn [forallb] in Hr. apply andb_true_iff in Hr as [Hc _]. repeat split.
    + now apply regular_white.
    + eapply regular_not; eauto.
    + exact HR.
  - intros rest H1 H2. apply ref_tail_tok; assumption.
  - intros rest H. exists 1%nat. apply Hread, H.
Qed.

Lemma written_delim c b o v :
  parse_obj o = (Ok (c :: b), o) -> is_white c = false -> is_regular c = false ->
  c <> 37 -> c <> 82 ->
  (forall rest, ok_rest rest -> reads ((c :: b) ++ rest) v rest) ->
  written_ok o v.
Proof.
  intros Hp Hw Hr H37 H82 Hread. exists (c :: b). repeat split.
  - exact Hp.
  - exists c, b; auto.
  - intros rest _ _. cbn [app]. now apply ref_tail_delim.
  - exact Hread.
Qed.

Lemma dec_Z_regular z : forallb is_regular (dec_Z z) = true.
Proof.
  destruct z; cbn [dec_Z]; try apply digits_regular, dec_digits.
  cbn [forallb]. apply digits_regular, dec_digits.
Qed.

Lemma dec_Z_nonempty z : dec_Z z <> [].
Proof. destruct z; cbn [dec_Z]; try apply dec_nonempty. discriminate. Qed.

Lemma dec_hd_not_R n : hd 0 (dec n) <> 82.
Proof.
  destruct (dec_cons n) as (d & t & -> & Hd & _). cbn [hd]. intros ->. discriminate.
Qed.

Lemma dec_Z_hd z : hd 0 (dec_Z z) <> 82.
Proof. destruct z; cbn [dec_Z]; try apply dec_hd_not_R. cbn. discriminate. Qed.

Lemma written_int z : written_ok (OInt z) (VInt z).
Proof.
  apply written_token with (t := dec_Z z).
  - rewrite parse_obj_eq. reflexivity.
  - apply dec_Z_regular.
  - apply dec_Z_nonempty.
  - apply dec_Z_hd.
  - intros f rest (H1 & H2 & _). destruct z; cbn [dec_Z].
    + rewrite read_dec by assumption. now rewrite H2.
    + rewrite read_dec by assumption. rewrite H2. reflexivity.
    + apply read_neg with (n := Npos p). assumption.
Qed.

Lemma written_bool b : written_ok (OBool b) (VBool b).
Proof.
  apply written_token with (t := if b then lit "true" else lit "false").
  - rewrite parse_obj_eq. reflexivity.
  - destruct b; reflexivity.
  - destruct b; discriminate.
  - destruct b; cbn; discriminate.
  - intros f rest (H1 & _ & _). rewrite read_obj_token;
      [destruct b; reflexivity|destruct b; reflexivity|destruct b; discriminate|exact H1].
Qed.

Lemma real_not_int t : real_token t = true -> int_token t = None.
Proof.
  unfold real_token, int_token. destruct (unsign t) as [neg u].
  destruct (span is_digit u) as [a b] eqn:E.
  destruct b as [|c b]; [discriminate|]. intros _.
  unfold all_digits. apply span_eq in E as E'. apply span_stop in E.
  rewrite E', forallb_app. cbn [forallb]. rewrite E. rewrite !andb_false_r. reflexivity.
Qed.

Lemma real_not_kw t k : real_token t = true -> real_token k = false -> str_eqb t k = false.
Proof. intros H1 H2. apply str_eqb_neq. intros ->. congruence. Qed.

Lemma real_hd t : real_token t = true -> t <> [] /\ hd 0 t <> 82.
Proof.
  intros H. destruct t as [|c t]; [discriminate|]. split; [discriminate|].
  cbn [hd]. intros ->. discriminate.
Qed.

Lemma written_float r :
  real_token r = true -> forallb is_regular r = true -> forallb (fun c => c <? 256) r = true ->
  written_ok (OFloat r) (VReal r).
Proof.
  intros H1 H2 H3. destruct (real_hd r H1) as [Hne HR].
  apply written_token with (t := r); auto.
  - rewrite parse_obj_eq. now rewrite encode_latin_small.
  - intros f rest (Hs & _ & _). rewrite read_obj_token by assumption.
    rewrite !real_not_kw by (auto; reflexivity).
    rewrite real_not_int by assumption. now rewrite H1.
Qed.

Lemma ref_tail_gen rest : head_stop rest ->
  ref_tail (lit " 0 R" ++ rest) = Some (0, rest).
Proof.
  intros H. unfold ref_tail.
  change (lit " 0 R" ++ rest) with (32 :: [48] ++ (32 :: [82] ++ rest)).
  rewrite skip_ws_space, tok_skip by (reflexivity || discriminate).
  rewrite span_regular_tok by reflexivity.
  change (all_digits [48]) with true. cbv iota.
  rewrite skip_ws_space, tok_skip by (reflexivity || discriminate).
  rewrite span_regular_tok by (reflexivity || exact H).
  reflexivity.
Qed.

Lemma written_ref n : (0 <= n)%Z -> written_ok (ORef n) (VRef (Z.to_N n) 0).
Proof.
  intros Hn.
  assert (Hd : dec_Z n = dec (Z.to_N n)) by (destruct n; [reflexivity|reflexivity|lia]).
  exists (ref_bytes n). unfold ref_bytes. rewrite Hd. repeat split.
  - rewrite parse_obj_eq. unfold ref_bytes. now rewrite Hd.
  - destruct (dec_cons (Z.to_N n)) as (d & t & E & Hdg & _).
    exists d, (t ++ lit " 0 R"). rewrite E. split; [reflexivity|].
    apply digit_regular in Hdg as Hr. repeat split.
    + now apply regular_white.
    + eapply regular_not; eauto.
    + intros ->. discriminate.
  - intros rest H1 H2. rewrite <- app_assoc.
    apply ref_tail_tok; [apply digits_regular, dec_digits|apply dec_nonempty|reflexivity|].
    unfold not_R. change (lit " 0 R" ++ rest) with (32 :: [48] ++ (32 :: [82] ++ rest)).
    rewrite skip_ws_space, tok_skip by (reflexivity || discriminate).
    rewrite span_regular_tok by reflexivity. discriminate.
  - intros rest (H1 & H2 & H3). exists 1%nat. rewrite <- app_assoc.
    rewrite read_dec by reflexivity. now rewrite ref_tail_gen.
Qed.

Lemma written_str s : plain_text s = true -> written_ok (OStr s) (VStr s).
Proof.
  intros H. apply written_delim with (c := 40) (b := escape_parens s ++ [41]); [|reflexivity|reflexivity|discriminate|discriminate|].
  - rewrite parse_obj_eq. rewrite encode_latin_small; [reflexivity|].
    cbn [forallb]. change (40 <? 256) with true. cbn [andb].
    apply forallb_app_iff. split; [|reflexivity].
    apply escape_parens_latin, plain_text_latin, H.
  - intros rest _. exists 1%nat. cbn [app read_obj].
    rewrite skip_ws_regular by (reflexivity || discriminate).
    change (40 =? 47) with false. change (40 =? 40) with true. cbv iota.
    rewrite <- app_assoc. cbn [app]. rewrite read_lit_escaped by exact H. reflexivity.
Qed.

Lemma written_bytes b v : denote_bytes b = Some v -> written_ok (OBytes b) v.
Proof.
  unfold denote_bytes. destruct b as [|c b]; [discriminate|].
  destruct (N.eq_dec c 47) as [->|N47]; [|destruct (N.eq_dec c 60) as [->|N60]].
  - destruct (plain_name b) eqn:E; [|discriminate]. intros [= <-].
    apply written_delim with (c := 47) (b := b); [|reflexivity|reflexivity|discriminate|discriminate|].
    + rewrite parse_obj_eq. reflexivity.
    + intros rest (H1 & _). exists 1%nat. cbn [app read_obj].
      rewrite skip_ws_regular by (reflexivity || discriminate).
      change (47 =? 47) with true. cbv iota.
      rewrite span_regular_tok by (auto using plain_name_regular).
      now rewrite decode_plain.
  - cbv zeta. destruct (forallb is_hex (removelast b) && str_eqb b (removelast b ++ [62])) eqn:E;
      [|discriminate].
    apply andb_true_iff in E as [Eh Eb]. apply str_eqb_eq in Eb.
    intros [= <-]. set (h := removelast b) in *. clearbody h. subst b.
    apply written_delim with (c := 60) (b := h ++ [62]); [|reflexivity|reflexivity|discriminate|discriminate|].
    + rewrite parse_obj_eq. reflexivity.
    + intros rest _. exists 1%nat. cbn [app read_obj].
      rewrite skip_ws_regular by (reflexivity || discriminate).
      change (60 =? 47) with false. change (60 =? 40) with false.
      change (60 =? 91) with false. change (60 =? 60) with true. cbv iota.
      rewrite <- app_assoc. cbn [app].
      pose proof (read_hex_ok_aux (List.length h) h rest (le_n _) Eh) as Hread.
      destruct h as [|a h].
      * reflexivity.
      * cbn [app] in *. cbn [forallb] in Eh. apply andb_true_iff in Eh as [Ha _].
        destruct (is_hex_not a Ha) as (_ & _ & H60). rewrite H60, Hread. reflexivity.
  - assert (forall {X} (a b d : X), match c with 47 => a | 60 => b | _ => d end = d) as Hm.
    { intros X a b0 d. destruct c as [|p]; [reflexivity|].
      repeat (destruct p as [p|p|]; try reflexivity); congruence. }
    rewrite Hm. discriminate.
Qed.

Lemma ok_rest_bracket rest : ok_rest (93 :: rest).
Proof.
  split; [reflexivity|split].
  - apply ref_tail_delim; (reflexivity || discriminate).
  - unfold not_R. rewrite skip_ws_regular by (reflexivity || discriminate). discriminate.
Qed.

Lemma ok_rest_gt rest : ok_rest (62 :: rest).
Proof.
  split; [reflexivity|split].
  - apply ref_tail_delim; (reflexivity || discriminate).
  - unfold not_R. rewrite skip_ws_regular by (reflexivity || discriminate). discriminate.
Qed.

Lemma ok_rest_slash rest : ok_rest (47 :: rest).
Proof.
  split; [reflexivity|split].
  - apply ref_tail_delim; (reflexivity || discriminate).
  - unfold not_R. rewrite skip_ws_regular by (reflexivity || discriminate). discriminate.
Qed.

Lemma reads_arr_cons l v r a r' : good_head l -> hd 0 l <> 93 ->
  reads l v r -> reads_arr r a r' -> reads_arr l (v :: a) r'.
Proof.
  intros (c & l' & -> & Hw & H37 & _) H93 [f Hf] [g Hg].
  exists (S (Nat.max f g)). cbn [read_arr].
  rewrite skip_ws_regular by assumption. cbn [hd] in H93.
  rewrite (neq_false c 93) by assumption.
  rewrite (proj1 (read_mono f) _ _ Hf) by lia.
  rewrite (proj1 (proj2 (read_mono g)) _ _ Hg) by lia. reflexivity.
Qed.

Lemma reads_arr_space l a r : reads_arr l a r -> reads_arr (32 :: l) a r.
Proof. intros [[|f] H]; [discriminate|]. exists (S f). exact H. Qed.

Lemma reads_space l a r : reads l a r -> reads (32 :: l) a r.
Proof. intros [[|f] H]; [discriminate|]. exists (S f). exact H. Qed.

Lemma reads_not_93 l v r : reads l v r -> hd 0 l <> 93.
Proof.
  intros [[|f] H]; [discriminate|]. destruct l as [|c l]; [discriminate|].
  cbn [hd]. intros ->. cbn in H. discriminate.
Qed.

Lemma written_seq (P : forall o v, denote o = Some v -> In o [] -> True) l vs :
  (forall o v, In o l -> denote o = Some v -> written_ok o v) ->
  denote_seq l = Some vs ->
  forall first acc, exists body,
    pseq parse_obj first acc l = (Ok (acc ++ body ++ lit "]"), l) /\
    (forall rest, reads_arr (body ++ 93 :: rest) vs rest) /\
    (first = false -> forall rest, ok_rest (body ++ 93 :: rest)).
Proof.
  clear P. revert vs. induction l as [|o l IH]; intros vs Hw Hd first acc.
  - cbn [denote_seq] in Hd. injection Hd as <-. exists [].
    split; [reflexivity|split].
    + intros rest. exists 1%nat. reflexivity.
    + intros; split; [reflexivity|split; [reflexivity|]].
      unfold not_R. discriminate.
  - cbn [denote_seq] in Hd. destruct (denote o) as [v|] eqn:Eo; [|discriminate].
    destruct (denote_seq l) as [vs'|] eqn:El; [|discriminate]. injection Hd as <-.
    destruct (Hw o v (or_introl eq_refl) Eo) as (b & Hp & Hg & Hrt & Hr).
    specialize (IH vs' (fun o' v' Hin => Hw o' v' (or_intror Hin)) eq_refl).
    cbn [Parser.pseq]. rewrite Hp.
    destruct b as [|c b]; [destruct Hg as (c & r & [=] & _)|].
    destruct (IH false (acc ++ (if first then [] else [32]) ++ c :: b)) as (body & E1 & E2 & E3).
    rewrite E1. exists ((if first then [] else [32]) ++ (c :: b) ++ body).
    assert (Hsingle : forall rest, reads ((c :: b) ++ body ++ 93 :: rest) v (body ++ 93 :: rest)).
    { intros rest. apply Hr. apply E3. reflexivity. }
    assert (Harr : forall rest, reads_arr ((c :: b) ++ body ++ 93 :: rest) (v :: vs') rest).
    { intros rest. eapply reads_arr_cons; [| |apply Hsingle|apply E2].
      - destruct Hg as (c0 & r0 & E0 & Hg). exists c0, (r0 ++ body ++ 93 :: rest).
        rewrite E0. split; [reflexivity|exact Hg].
      - eapply reads_not_93, Hsingle. }
    split; [|split].
    + f_equal. f_equal. rewrite <- !app_assoc. reflexivity.
    + intros rest. rewrite <- !app_assoc. destruct first; cbn [app].
      * apply Harr.
      * apply reads_arr_space. apply Harr.
    + intros -> rest. rewrite <- !app_assoc. cbn [app].
      destruct (E3 eq_refl rest) as (F1 & F2 & F3).
      split; [reflexivity|]. split.
      * rewrite ref_tail_space. apply (Hrt _ F1 F3).
      * apply not_R_space. apply (good_head_not_R (c :: b)). exact Hg.
Qed.

Lemma reads_dict_cons k v l r d r' : plain_name k = true -> head_stop l ->
  reads l v r -> reads_dict r d r' -> reads_dict (47 :: k ++ l) ((k, v) :: d) r'.
Proof.
  intros Hk Hl [f Hf] [g Hg].
  exists (S (Nat.max f g)). cbn [read_dict].
  rewrite skip_ws_regular by (reflexivity || discriminate).
  change (47 =? 62) with false. change (47 =? 47) with true. cbv iota.
  rewrite span_regular_tok by (auto using plain_name_regular).
  rewrite decode_plain by assumption.
  rewrite (proj1 (read_mono f) _ _ Hf) by lia.
  rewrite (proj2 (proj2 (read_mono g)) _ _ Hg) by lia. reflexivity.
Qed.

Lemma written_dict d vs :
  (forall k o v, In (k, o) d -> denote o = Some v -> written_ok o v) ->
  denote_dict d = Some vs ->
  forall acc, exists body,
    pdict parse_obj acc d = (Ok (acc ++ body ++ lit ">>"), d) /\
    (forall rest, reads_dict (body ++ lit ">>" ++ rest) vs rest) /\
    (forall rest, ok_rest (body ++ lit ">>" ++ rest)).
Proof.
  revert vs. induction d as [|[k o] d IH]; intros vs Hw Hd acc.
  - cbn [denote_dict] in Hd. injection Hd as <-. exists [].
    split; [reflexivity|split].
    + intros rest. exists 1%nat. reflexivity.
    + intros; split; [reflexivity|split; [reflexivity|]].
      unfold not_R. discriminate.
  - cbn [denote_dict] in Hd. destruct (plain_name k) eqn:Ek; [|discriminate].
    destruct (denote o) as [v|] eqn:Eo; [|discriminate].
    destruct (denote_dict d) as [vs'|] eqn:El; [|discriminate]. injection Hd as <-.
    destruct (Hw k o v (or_introl eq_refl) Eo) as (b & Hp & Hg & Hrt & Hr).
    specialize (IH vs' (fun k' o' v' Hin => Hw k' o' v' (or_intror Hin)) eq_refl).
    cbn [Parser.pdict]. rewrite encode_latin_small by (apply plain_name_latin, Ek).
    rewrite Hp.
    destruct b as [|c b]; [destruct Hg as (c & r & [=] & _)|].
    destruct (IH (acc ++ 47 :: k ++ 32 :: c :: b)) as (body & E1 & E2 & E3).
    rewrite E1. exists ((47 :: k ++ 32 :: c :: b) ++ body).
    split; [|split].
    + f_equal. f_equal. rewrite <- !app_assoc. reflexivity.
    + intros rest. cbn [app]. rewrite <- !app_assoc. cbn [app].
      eapply reads_dict_cons; [exact Ek|reflexivity| |apply E2].
      apply reads_space. apply (Hr _ (E3 rest)).
    + intros rest. apply ok_rest_slash.
Qed.

Theorem written_ok_all : forall n o v, (depth o < n)%nat -> denote o = Some v -> written_ok o v.
Proof.
  induction n as [|n IH]; intros o v Hn Hd; [lia|].
  destruct o.
  - cbn [denote depth] in *. destruct (IH o v ltac:(lia) Hd) as (b & Hp & Hrest).
    exists b. split; [|exact Hrest]. rewrite parse_obj_eq. now rewrite Hp.
  - cbn [denote] in Hd. destruct (0 <=? n0)%Z eqn:E; [|discriminate].
    injection Hd as <-. apply written_ref. lia.
  - rewrite denote_ODict in Hd. destruct (dmem k_stream d) eqn:Es; [discriminate|].
    destruct (denote_dict d) as [vs|] eqn:E; [|discriminate]. injection Hd as <-.
    cbn [depth] in Hn. change (fold_right _ _ d) with (dict_depth d) in Hn.
    destruct (written_dict d vs) with (acc := lit "<<") as (body & E1 & E2 & _).
    + intros k o0 v0 Hin Hv. apply depth_in_dict in Hin. apply IH; [lia|exact Hv].
    + exact E.
    + apply written_delim with (c := 60) (b := 60 :: body ++ lit ">>"); [|reflexivity|reflexivity|discriminate|discriminate|].
      * rewrite parse_obj_eq, Es, E1. reflexivity.
      * intros rest _. destruct (E2 rest) as [f Hf]. exists (S f). cbn [app read_obj].
        rewrite skip_ws_regular by (reflexivity || discriminate).
        change (60 =? 47) with false. change (60 =? 40) with false.
        change (60 =? 91) with false. change (60 =? 60) with true. cbv iota.
        rewrite <- app_assoc, Hf. reflexivity.
  - rewrite denote_OSeq in Hd.
    destruct (denote_seq l) as [vs|] eqn:E; [|discriminate]. injection Hd as <-.
    destruct (written_seq (fun _ _ _ _ => I) l vs) with (first := true) (acc := lit "[")
      as (body & E1 & E2 & _).
    + intros o0 v0 Hin Hv. apply depth_in_seq in Hin. apply IH; [lia|exact Hv].
    + exact E.
    + apply written_delim with (c := 91) (b := body ++ lit "]"); [|reflexivity|reflexivity|discriminate|discriminate|].
      * rewrite parse_obj_eq, E1. reflexivity.
      * intros rest _. destruct (E2 rest) as [f Hf]. exists (S f). cbn [app read_obj].
        rewrite skip_ws_regular by (reflexivity || discriminate).
        change (91 =? 47) with false. change (91 =? 40) with false.
        change (91 =? 91) with true. cbv iota.
        rewrite <- app_assoc. change (lit "]" ++ rest) with (93 :: rest).
        rewrite Hf. reflexivity.
  - apply written_bytes, Hd.
  - injection Hd as <-. apply written_bool.
  - injection Hd as <-. apply written_int.
  - cbn [denote] in Hd.
    destruct (real_token repr && forallb is_regular repr && forallb (fun c => c <? 256) repr) eqn:E;
      [|discriminate]. injection Hd as <-.
    apply andb_true_iff in E as [E E3]. apply andb_true_iff in E as [E1 E2].
    now apply written_float.
  - cbn [denote] in Hd. destruct (plain_text s) eqn:E; [|discriminate].
    injection Hd as <-. now apply written_str.
  - discriminate.
Qed.

End RoundTrip.
