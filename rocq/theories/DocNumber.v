(** Page numbers of a built document (C54). *)
From Coq Require Import String QArith ZArith Lia List.
From Verif Require Import Py PyStr Ranges Roman Margins PageGeom Document.
Import ListNotations.
Open Scope list_scope.

(** ** Specification *)

(** [t] is the number [n], written in digits or in roman numerals. *)
Definition number_text (roman : bool) (n : Z) (t : str) : Prop :=
  if roman then roman_value t = n /\ canonical_roman t = true else t = dec_Z n.
(** A key of a section, or else of the document. *)
Definition given {A} (doc sec : option A) (v : A) : Prop := sec = Some v \/ sec = None /\ doc = Some v.
Definition not_given {A} (doc sec : option A) : Prop := sec = None /\ doc = None.

Section Doc.
Context {C B : Type}.
(** [numbered d o r i secs logs]: the sections [secs], whose first page has
    index [i], have the pages [logs]; before them the offset was [o] and the
    style roman if [r]. *)
Inductive numbered (d : document C B) : Z -> bool -> nat -> list (section C) -> list (list entry) -> Prop :=
| numbered_nil o r i : numbered d o r i [] []
| numbered_cons o r i sec secs es logs o' r' :
    (* the offset: back to the start, or as given, or as before *)
    (given (o_reset d) (n_reset sec) true -> o' = (- Z.of_nat i)%Z) ->
    (~ given (o_reset d) (n_reset sec) true ->
       (forall z, given (o_offset d) (n_offset sec) z -> o' = z) /\
       (not_given (o_offset d) (n_offset sec) -> o' = o)) ->
    (* the style: as given, or as before *)
    (forall t, given (o_numstyle d) (n_numstyle sec) t -> (r' = true <-> t = lit "roman")) ->
    (not_given (o_numstyle d) (n_numstyle sec) -> r' = r) ->
    (* the number on each page *)
    (forall k e, nth_error es k = Some e ->
       exists t, e_number e = Some t /\ number_text r' (Z.of_nat (i + k) + 1 + o') t) ->
    numbered d o' r' (i + length es) secs logs ->
    numbered d o r i (sec :: secs) (es :: logs).

(** ** Proof *)
Variable float_of : str -> res Q.
Variable fill : C -> Q * Q * Q * Q -> page -> res (C * bool).
Variable draw : B -> Q * Q * Q * Q -> page -> res (Q * Q).
Variable iter : list str -> list str.

Lemma setup_page_number s a b c s' : setup_page float_of s a b c = Ok s' ->
  ps_pages s' = ps_pages s /\ ps_offset s' = ps_offset s /\ ps_roman s' = ps_roman s.
Proof.
  unfold setup_page. destruct (match a with Some _ => _ | None => _ end); [|discriminate]. cbn [bind].
  destruct (match c with Some _ => _ | None => _ end); [|discriminate]. cbn [bind]. intros [= <-]. auto.
Qed.

Lemma page_number_text s i n : page_number s i = Ok n -> number_text (ps_roman s) (Z.of_nat i + 1 + ps_offset s) n.
Proof.
  unfold page_number, number_text. destruct (ps_roman s); [|now intros [= <-]]. intros H.
  destruct (Z_lt_dec 0 (Z.of_nat i + 1 + ps_offset s)) as [H1|H1];
    [destruct (Z_lt_dec (Z.of_nat i + 1 + ps_offset s) 4000) as [H2|H2]|].
  - destruct (to_roman_ok _ (conj H1 H2)) as (r & E & H3 & H4). rewrite E in H. injection H as <-. auto.
  - rewrite to_roman_err in H by lia. discriminate.
  - rewrite to_roman_err in H by lia. discriminate.
Qed.

Lemma do_page_number rules dict k own names s c s' c' fin e :
  do_page float_of fill draw iter rules dict k own names s c = Ok (s', c', fin, e) ->
  length (ps_pages s') = S (length (ps_pages s)) /\ ps_offset s' = ps_offset s /\ ps_roman s' = ps_roman s /\
  e_section e = k /\
  exists t, e_number e = Some t /\ number_text (ps_roman s) (Z.of_nat (length (ps_pages s)) + 1 + ps_offset s) t.
Proof.
  unfold do_page. destruct (page_plan _ _ _ _) as [args set_].
  destruct (setup_page _ _ _ _ _) as [s1|] eqn:E1; [|discriminate]. cbn [bind].
  apply setup_page_number in E1 as (P1 & O1 & R1).
  destruct (if ps_rot s1 then _ else _) as [pw ph].
  do 4 (destruct (need _ _); [|discriminate]; cbn [bind]).
  destruct (running_plan _ _ _ _ _) as [plan|]; [|discriminate]. cbn [bind].
  destruct (add_page _ _ _ _ _) as [[[]|] s2] eqn:E2; [|discriminate].
  apply add_page_number in E2 as (_ & L2 & O2 & R2 & n & N2 & M2).
  cbn [with_sections ps_pages ps_offset ps_roman] in *.
  destruct (rev (ps_pages s2)); [discriminate|]. destruct (fill _ _ _) as [cf|]; [|discriminate]. cbn [bind].
  intros [= <- <- <- <-]. rewrite P1 in *. split; [exact L2|]. split; [congruence|]. split; [congruence|].
  cbn [e_number e_section]. split; [reflexivity|]. exists n. split; [exact M2|].
  apply page_number_text in N2. cbn [with_sections ps_offset ps_roman] in N2. now rewrite O1, R1 in N2.
Qed.

Lemma pages_loop_number rules dict k own names : forall fuel s c s' log,
  pages_loop float_of fill draw iter rules dict k own names fuel s c = Ok (s', log) ->
  length (ps_pages s') = (length (ps_pages s) + length log)%nat /\
  ps_offset s' = ps_offset s /\ ps_roman s' = ps_roman s /\ log <> [] /\ Forall (fun e => e_section e = k) log /\
  forall j e, nth_error log j = Some e -> exists t, e_number e = Some t /\
    number_text (ps_roman s) (Z.of_nat (length (ps_pages s) + j) + 1 + ps_offset s) t.
Proof.
  induction fuel as [|fuel IH]; intros s c s' log H; cbn [pages_loop] in H; [discriminate|].
  destruct (do_page _ _ _ _ _ _ _ _ _ _ _) as [[[[s1 c1] fin] e]|] eqn:Ed; [|discriminate].
  cbn [bind] in H. apply do_page_number in Ed as (L1 & O1 & R1 & K1 & t & T1 & T2).
  destruct fin.
  - injection H as <- <-. split; [cbn; lia|]. split; [exact O1|]. split; [exact R1|]. split; [discriminate|].
    split; [repeat constructor; exact K1|]. intros [|j] e0; cbn [nth_error]; [|now destruct j].
    intros [= <-]. exists t. rewrite Nat.add_0_r. auto.
  - destruct (pages_loop _ _ _ _ _ _ _ _ _ _ _ _) as [[s2 log2]|] eqn:El; [|discriminate].
    cbn [bind fst snd] in H. injection H as <- <-.
    destruct (IH _ _ _ _ El) as (L2 & O2 & R2 & _ & F2 & N2).
    split; [cbn [length]; lia|]. split; [congruence|]. split; [congruence|]. split; [discriminate|].
    split; [constructor; assumption|]. intros [|j] e0; cbn [nth_error].
    + intros [= <-]. exists t. rewrite Nat.add_0_r. auto.
    + intros H0. destruct (N2 _ _ H0) as (t0 & A1 & A2). exists t0. split; [exact A1|].
      rewrite L1, O1, R1 in A2. now replace (length (ps_pages s) + S j)%nat with (S (length (ps_pages s)) + j)%nat by lia.
Qed.

Lemma sections_number d rules fuel : forall l k s s' log,
  process_sections float_of fill draw iter d rules k fuel s l = Ok (s', log) ->
  exists logs, log = concat logs /\ length logs = length l /\
    (forall j es, nth_error logs j = Some es -> es <> [] /\ Forall (fun e => e_section e = (k + j)%nat) es) /\
    numbered d (ps_offset s) (ps_roman s) (length (ps_pages s)) l logs.
Proof.
  induction l as [|n rest IH]; intros k s s' log H; cbn [process_sections] in H.
  - injection H as <- <-. exists []. repeat (split; [reflexivity|]). split; [intros [|]; discriminate|constructor].
  - destruct (process_section _ _ _ _ _ _ _ _ _ _) as [[s1 l1]|] eqn:E1; [|discriminate].
    cbn [bind fst snd] in H.
    destruct (process_sections _ _ _ _ _ _ _ _ _ _) as [[s2 l2]|] eqn:E2; [|discriminate].
    cbn [bind fst snd] in H. injection H as <- <-. unfold process_section in E1.
    destruct (IH _ _ _ _ E2) as (logs & H1 & H2 & H3 & H4).
    apply pages_loop_number in E1 as (L1 & O1 & R1 & N1 & F1 & T1).
    cbn [section_numbering ps_pages ps_offset ps_roman] in *.
    exists (l1 :: logs). split; [cbn [concat]; congruence|]. split; [cbn [length]; congruence|]. split.
    { intros [|j] es; cbn [nth_error]; [intros [= <-]; rewrite Nat.add_0_r; auto|]. intros Hj.
      destruct (H3 _ _ Hj) as [A1 A2]. split; [exact A1|].
      now replace (k + S j)%nat with (S k + j)%nat by lia. }
    eapply numbered_cons; [| | | |exact T1|rewrite <- L1, <- O1, <- R1; exact H4].
    + intros [G|[G1 G2]]; unfold over; [now rewrite G|now rewrite G1, G2].
    + intros Hn. assert (Hr : (match over (o_reset d) (n_reset n) with Some b => b | None => false end) = false).
      { unfold over. destruct (n_reset n) as [[|]|] eqn:Er.
        - destruct Hn. left. reflexivity.
        - reflexivity.
        - destruct (o_reset d) as [[|]|] eqn:Eo; try reflexivity. destruct Hn. right. auto. }
      rewrite Hr. split.
      * intros z [G|[G1 G2]]; unfold over; [now rewrite G|now rewrite G1, G2].
      * intros [G1 G2]. unfold over. now rewrite G1, G2.
    + intros t [G|[G1 G2]]; unfold over; [rewrite G|rewrite G1, G2]; apply str_eqb_eq.
    + intros [G1 G2]. unfold over. now rewrite G1, G2.
Qed.

Theorem build_numbers d fuel s log : build float_of fill draw iter fuel d = Ok (s, log) ->
  exists logs, log = concat logs /\ length logs = length (o_sections d) /\
    (forall j es, nth_error logs j = Some es -> es <> [] /\ Forall (fun e => e_section e = j) es) /\
    forall o r, (forall z, o_offset d = Some z -> o = z) -> (o_offset d = None -> o = 0%Z) ->
      (forall t, o_numstyle d = Some t -> (r = true <-> t = lit "roman")) -> (o_numstyle d = None -> r = false) ->
      numbered d o r 0 (o_sections d) logs.
Proof.
  unfold build. destruct (mapM _ _) as [rules|]; [|discriminate]. cbn [bind].
  destruct (first_state float_of d) as [s0|] eqn:E0; [|discriminate]. cbn [bind]. intros H.
  apply sections_number in H as (logs & H1 & H2 & H3 & H4).
  exists logs. split; [exact H1|]. split; [exact H2|]. split; [exact H3|].
  intros o r Ho1 Ho2 Hr1 Hr2. unfold first_state in E0. apply setup_page_number in E0 as (P0 & O0 & R0).
  cbn [ps_pages ps_offset ps_roman] in *. rewrite P0 in H4. cbn [length] in H4.
  replace o with (ps_offset s0). 2:{ rewrite O0. destruct (o_offset d); [symmetry; now apply Ho1|symmetry; now apply Ho2]. }
  replace r with (ps_roman s0); [exact H4|]. rewrite R0. destruct (o_numstyle d) as [t|]; [|symmetry; now apply Hr2].
  specialize (Hr1 t eq_refl). destruct (str_eqb t (lit "roman")) eqn:E.
  - apply str_eqb_eq in E. symmetry. now apply Hr1.
  - destruct r; [|reflexivity]. exfalso. destruct Hr1 as [Hr1 _]. specialize (Hr1 eq_refl). subst t.
    now rewrite str_eqb_refl in E.
Qed.
End Doc.
