(** Model of the style strings: pdfme/utils.py 140-246 [parse_style_str]. *)
From Coq Require Import String QArith Lqa.
From Verif Require Import Py PyStr Parser StreamProofs Gfx Color.
Open Scope N_scope.
Open Scope list_scope.

(** Values of style attributes.  [RawV] are those of a [style] dict that are
    not of the kinds that style strings give. *)
Inductive sval := BoolV (b : bool) | NumV (q : Q) | FontV (s : str) | ColorV (c : option (list Q)) | RawV (c : cspec).
Definition sdict := list (str * sval).
(** [style.update(other)]. *)
Definition dupdate (d e : sdict) : sdict := fold_left (fun d kv => dset (fst kv) (snd kv) d) e d.

Section Style.
(** If a family is in [fonts.fonts] or registered. *)
Variable family : str -> bool.

Definition is_flag (n : str) : bool := str_eqb n (lit "b") || str_eqb n (lit "i") || str_eqb n (lit "u").

(** utils.py 177-244, for one piece. *)
Definition style_piece (st : sdict) (piece : str) : res sdict :=
  match split_on 58 piece with
  | [a] =>
      match a with
      | [] => Ok st
      | _ => let n := py_strip a in if is_flag n then Ok (dset n (BoolV true) st) else Err ValueError
      end
  | [a; v] =>
      let n := py_strip a in
      let x := py_strip v in
      do st1 <- (if is_flag n then
                   if str_eqb x (lit "1") then Ok (dset n (BoolV true) st)
                   else if str_eqb x (lit "0") then Ok (dset n (BoolV false) st)
                   else Err ValueError
                 else Ok st);
      if str_eqb n (lit "f") then
        if family x then Ok (dset (lit "f") (FontV x) st1) else Err ValueError
      else if str_eqb n (lit "c") then do c <- parse_color (SText x); Ok (dset (lit "c") (ColorV c) st1)
      else if str_eqb n (lit "bg") then do c <- parse_color (SText x); Ok (dset (lit "bg") (ColorV c) st1)
      else if str_eqb a (lit "s") then
        match py_float x with Some q => Ok (dset (lit "s") (NumV q) st1) | None => Err ValueError end
      else if str_eqb a (lit "r") then
        match py_float x with Some q => Ok (dset (lit "r") (NumV q) st1) | None => Err ValueError end
      else Err ValueError
  | _ => Err ValueError
  end.
Fixpoint style_pieces (st : sdict) (l : list str) : res sdict :=
  match l with [] => Ok st | p :: r => do st1 <- style_piece st p; style_pieces st1 r end.
Definition parse_style_str (s : str) : res sdict := style_pieces [] (split_on 59 s).

(** ** Specification *)

(** A text between white space, without colons. *)
Definition white : list N := [9; 10; 11; 12; 13; 28; 29; 30; 31; 32; 133; 160].
Definition pads (n a : str) : Prop :=
  ~ In 58 a /\ (forall c m, n = c :: m -> ~ In c white) /\ (forall m c, n = m ++ [c] -> ~ In c white) /\
  exists l r, a = l ++ n ++ r /\ Forall (fun c => In c white) l /\ Forall (fun c => In c white) r.
Inductive writes : str -> str * sval -> Prop :=
| w_flag n a : In n [lit "b"; lit "i"; lit "u"] -> pads n a -> writes a (n, BoolV true)
| w_font x a v : family x = true -> pads (lit "f") a -> pads x v -> writes (a ++ 58 :: v) (lit "f", FontV x)
| w_color x c a v : parse_color (SText x) = Ok c -> pads (lit "c") a -> pads x v -> writes (a ++ 58 :: v) (lit "c", ColorV c)
| w_back x c a v : parse_color (SText x) = Ok c -> pads (lit "bg") a -> pads x v -> writes (a ++ 58 :: v) (lit "bg", ColorV c)
| w_size x q v : py_float x = Some q -> pads x v -> writes (lit "s" ++ 58 :: v) (lit "s", NumV q)
| w_rise x q v : py_float x = Some q -> pads x v -> writes (lit "r" ++ 58 :: v) (lit "r", NumV q).
(** A piece between semicolons: empty, or an attribute. *)
Inductive writes_piece : str -> list (str * sval) -> Prop :=
| wp_none : writes_piece [] []
| wp_some p kv : writes p kv -> writes_piece p [kv].

(** ** Proofs *)

Lemma white_space c : In c white <-> is_space c = true.
Proof.
  unfold white, is_space. split.
  - intros H. repeat (destruct H as [<-|H]; [reflexivity|]). destruct H.
  - intros H. assert (Hc : c < 161) by lia. revert H.
    assert (Hall : forallb (fun c => implb (((9 <=? c) && (c <=? 13)) || ((28 <=? c) && (c <=? 32)) || (c =? 133) || (c =? 160)) (existsb (N.eqb c) white)) (map N.of_nat (seq 0 161)) = true) by (vm_compute; reflexivity).
    rewrite forallb_forall in Hall. assert (Hin : In c (map N.of_nat (seq 0 161))) by (apply in_map_iff; exists (N.to_nat c); split; [apply N2Nat.id|apply in_seq; lia]).
    specialize (Hall c Hin). intros H. rewrite H in Hall. cbn [implb] in Hall. apply existsb_exists in Hall as (x & Hx & E). apply N.eqb_eq in E. subst x. exact Hx.
Qed.
Lemma lstrip_first s : match lstrip s with [] => True | c :: _ => is_space c = false end.
Proof. induction s as [|c s IH]; [exact I|]. cbn [lstrip]. destruct (is_space c) eqn:E; [exact IH|exact E]. Qed.
Lemma lstrip_cut s : exists l, Forall (fun c => In c white) l /\ s = l ++ lstrip s.
Proof.
  induction s as [|c s (l & H1 & H2)]; [exists []; split; [constructor|reflexivity]|]. cbn [lstrip]. destruct (is_space c) eqn:E.
  - exists (c :: l). split; [constructor; [apply white_space; exact E|assumption]|]. cbn [app]. now rewrite <- H2.
  - exists []. split; [constructor|reflexivity].
Qed.
Lemma no_colon a : ~ In 58 a <-> forallb (fun c => negb (58 =? c)) a = true.
Proof.
  rewrite forallb_forall. split.
  - intros H x Hx. destruct (58 =? x) eqn:E; [|reflexivity]. apply N.eqb_eq in E. subst x. contradiction.
  - intros H Hin. specialize (H _ Hin). discriminate.
Qed.
Lemma whites l : Forall (fun c => In c white) l -> forallb is_space l = true.
Proof. intros H. apply forallb_forall. intros x Hx. apply white_space. rewrite Forall_forall in H. exact (H x Hx). Qed.
Lemma lstrip_keep s r : match s with [] => False | c :: _ => is_space c = false end -> lstrip (s ++ r) = s ++ r.
Proof. destruct s as [|c s]; [intros []|]. cbn [app lstrip]. now intros ->. Qed.
Lemma pads_iff n a : pads n a <-> py_strip a = n /\ forallb (fun c => negb (58 =? c)) a = true.
Proof.
  unfold pads. rewrite <- no_colon. split.
  - intros (H0 & H1 & H2 & l & r & -> & Hl & Hr). split; [|exact H0]. unfold py_strip. rewrite lstrip_spaces by (apply whites; exact Hl).
    destruct n as [|c n].
    + cbn [app]. replace (lstrip r) with (@nil N); [reflexivity|]. symmetry. rewrite <- (app_nil_r r), lstrip_spaces by (apply whites; exact Hr). reflexivity.
    + assert (Hc : is_space c = false) by (destruct (is_space c) eqn:E; [exfalso; apply (H1 c n eq_refl), white_space; exact E|reflexivity]).
      rewrite lstrip_keep by exact Hc. rewrite rev_app_distr, lstrip_spaces by (rewrite forallb_rev'; apply whites; exact Hr).
      destruct (rev (c :: n)) as [|x m] eqn:E; [apply (f_equal (@rev N)) in E; rewrite rev_involutive in E; discriminate|].
      assert (En : c :: n = rev m ++ [x]) by (apply (f_equal (@rev N)) in E; rewrite rev_involutive in E; exact E).
      rewrite lstrip_id; [|destruct (is_space x) eqn:Ex; [exfalso; apply (H2 _ _ En), white_space; exact Ex|reflexivity]]. rewrite En. reflexivity.
  - intros [<- H0]. split; [exact H0|]. unfold py_strip. split; [|split].
    + intros c m E Hc. apply white_space in Hc. destruct (lstrip_cut (rev (lstrip a))) as (l & _ & Hs).
      assert (Hs' : lstrip a = rev (lstrip (rev (lstrip a))) ++ rev l) by (rewrite <- rev_app_distr, <- Hs, rev_involutive; reflexivity).
      rewrite E in Hs'. pose proof (lstrip_first a) as K. rewrite Hs' in K. cbn [app] in K. congruence.
    + intros m c E Hc. apply white_space in Hc. apply (f_equal (@rev N)) in E. rewrite rev_involutive, rev_app_distr in E. cbn [rev app] in E.
      pose proof (lstrip_first (rev (lstrip a))) as K. rewrite E in K. congruence.
    + destruct (lstrip_cut a) as (l & Hl & E). destruct (lstrip_cut (rev (lstrip a))) as (r & Hr & E2). exists l, (rev r).
      split; [|split; [exact Hl|apply Forall_rev; exact Hr]]. rewrite <- rev_app_distr, <- E2, rev_involutive. exact E.
Qed.
Lemma flag_in n : In n [lit "b"; lit "i"; lit "u"] <-> is_flag n = true.
Proof. unfold is_flag. rewrite !orb_true_iff, !str_eqb_eq. cbn [In]. split; [intros [H|[H|[H|[]]]]; subst; auto|intros [[H|H]|H]; subst; auto]. Qed.

Lemma flag_cases n : is_flag n = true -> n = lit "b" \/ n = lit "i" \/ n = lit "u".
Proof. unfold is_flag. rewrite !orb_true_iff, !str_eqb_eq. tauto. Qed.
Lemma split_colon a v : forallb (fun c => negb (58 =? c)) a = true -> forallb (fun c => negb (58 =? c)) v = true ->
  split_on 58 (a ++ 58 :: v) = [a; v].
Proof. intros H1 H2. unfold split_on. rewrite split_by_app by (exact H1 || reflexivity). now rewrite split_by_none. Qed.
Lemma piece_two a v n x st : pads n a -> pads x v -> is_flag n = false -> style_piece st (a ++ 58 :: v) =
      if str_eqb n (lit "f") then
        if family x then Ok (dset (lit "f") (FontV x) st) else Err ValueError
      else if str_eqb n (lit "c") then do c <- parse_color (SText x); Ok (dset (lit "c") (ColorV c) st)
      else if str_eqb n (lit "bg") then do c <- parse_color (SText x); Ok (dset (lit "bg") (ColorV c) st)
      else if str_eqb a (lit "s") then
        match py_float x with Some q => Ok (dset (lit "s") (NumV q) st) | None => Err ValueError end
      else if str_eqb a (lit "r") then
        match py_float x with Some q => Ok (dset (lit "r") (NumV q) st) | None => Err ValueError end
      else Err ValueError.
Proof.
  intros Hn Hx Hf. apply pads_iff in Hn as [<- H1], Hx as [<- H2]. unfold style_piece. rewrite split_colon by assumption. rewrite Hf. cbn [bind]. reflexivity.
Qed.
Lemma writes_ok p kv st : writes p kv -> style_piece st p = Ok (dset (fst kv) (snd kv) st).
Proof.
  intros [n a Hn Ha|x a v Hx Ha Hv|x c a v Hx Ha Hv|x c a v Hx Ha Hv|x q v Hx Hv|x q v Hx Hv]; cbn [fst snd].
  - apply pads_iff in Ha as [Ha Hc]. apply flag_in in Hn. unfold style_piece, split_on. rewrite split_by_none by exact Hc. destruct a as [|z a].
    + cbn in Ha. subst n. discriminate.
    + rewrite Ha, Hn. reflexivity.
  - rewrite (piece_two a v (lit "f") x) by (assumption || reflexivity). change (str_eqb (lit "f") (lit "f")) with true. cbv iota. now rewrite Hx.
  - rewrite (piece_two a v (lit "c") x) by (assumption || reflexivity).
    change (str_eqb (lit "c") (lit "f")) with false. change (str_eqb (lit "c") (lit "c")) with true. cbv iota. now rewrite Hx.
  - rewrite (piece_two a v (lit "bg") x) by (assumption || reflexivity).
    change (str_eqb (lit "bg") (lit "f")) with false. change (str_eqb (lit "bg") (lit "c")) with false.
    change (str_eqb (lit "bg") (lit "bg")) with true. cbv iota. now rewrite Hx.
  - rewrite (piece_two (lit "s") v (lit "s") x) by (assumption || (apply pads_iff; split; reflexivity) || reflexivity).
    change (str_eqb (lit "s") (lit "f")) with false. change (str_eqb (lit "s") (lit "c")) with false.
    change (str_eqb (lit "s") (lit "bg")) with false. change (str_eqb (lit "s") (lit "s")) with true. cbv iota. now rewrite Hx.
  - rewrite (piece_two (lit "r") v (lit "r") x) by (assumption || (apply pads_iff; split; reflexivity) || reflexivity).
    change (str_eqb (lit "r") (lit "f")) with false. change (str_eqb (lit "r") (lit "c")) with false.
    change (str_eqb (lit "r") (lit "bg")) with false. change (str_eqb (lit "r") (lit "s")) with false.
    change (str_eqb (lit "r") (lit "r")) with true. cbv iota. now rewrite Hx.
Qed.
Lemma writes_piece_ok p kvs st : writes_piece p kvs -> style_piece st p = Ok (dupdate st kvs).
Proof. intros [|q kv H]; [reflexivity|]. exact (writes_ok _ _ _ H). Qed.

Lemma split_by_free p s : Forall (fun t => forallb (fun c => negb (p c)) t = true) (split_by p s).
Proof.
  induction s as [|c s IH]; cbn [split_by]; [constructor; [reflexivity|constructor]|].
  destruct (p c) eqn:E; [constructor; [reflexivity|exact IH]|].
  destruct (split_by p s) as [|x l]; apply Forall_cons_iff in IH || idtac.
  - constructor; [cbn; now rewrite E|constructor].
  - destruct IH as [H1 H2]. constructor; [cbn [forallb]; now rewrite E, H1|exact H2].
Qed.
Lemma flag_not_f n : is_flag n = true -> str_eqb n (lit "f") = false /\ str_eqb n (lit "c") = false /\ str_eqb n (lit "bg") = false /\
  n <> lit "s" /\ n <> lit "r".
Proof. intros H. apply flag_cases in H as [->|[->| ->]]; repeat split; discriminate. Qed.
Lemma piece_inv st p r : style_piece st p = r ->
  match r with
  | Ok st' => exists kvs, writes_piece p kvs /\ st' = dupdate st kvs
  | Err e => e = ValueError \/ exists a v x, p = a ++ 58 :: v /\ pads x v /\ parse_color (SText x) = Err e
  end.
Proof.
  intros <-. unfold style_piece. pose proof (split_by_free (N.eqb 58) p) as HF. fold (split_on 58 p) in HF.
  pose proof (split_join_inv 58 p) as Hj.
  destruct (split_on 58 p) as [|a [|v [|? ?]]]; try (left; reflexivity).
  - cbn [join] in Hj. subst a. apply Forall_cons_iff in HF as [HF _]. destruct p as [|c p]; [exists []; split; [constructor|reflexivity]|].
    destruct (is_flag (py_strip (c :: p))) eqn:Hf; [|left; reflexivity].
    exists [(py_strip (c :: p), BoolV true)]. split; [|reflexivity]. constructor. apply w_flag; [apply flag_in; exact Hf|]. apply pads_iff. split; [reflexivity|exact HF].
  - cbn [join] in Hj. subst p. apply Forall_cons_iff in HF as [Ha HF]. apply Forall_cons_iff in HF as [Hv _].
    assert (Pa : pads (py_strip a) a) by (apply pads_iff; split; [reflexivity|exact Ha]).
    assert (Pv : pads (py_strip v) v) by (apply pads_iff; split; [reflexivity|exact Hv]).
    destruct (is_flag (py_strip a)) eqn:Hf.
    + destruct (flag_not_f _ Hf) as (E1 & E2 & E3 & E4 & E5). rewrite E1, E2, E3.
      assert (E4' : str_eqb a (lit "s") = false) by (apply str_eqb_neq; intros ->; now apply E4).
      assert (E5' : str_eqb a (lit "r") = false) by (apply str_eqb_neq; intros ->; now apply E5).
      rewrite E4', E5'. destruct (str_eqb (py_strip v) (lit "1")); [left; reflexivity|]. destruct (str_eqb (py_strip v) (lit "0")); left; reflexivity.
    + cbn [bind]. destruct (str_eqb (py_strip a) (lit "f")) eqn:E1.
      { apply str_eqb_eq in E1. rewrite E1 in Pa. destruct (family (py_strip v)) eqn:Ef; [|left; reflexivity].
        exists [(lit "f", FontV (py_strip v))]. split; [constructor; now apply (w_font _ a v Ef)|reflexivity]. }
      destruct (str_eqb (py_strip a) (lit "c")) eqn:E2.
      { apply str_eqb_eq in E2. rewrite E2 in Pa. destruct (parse_color (SText (py_strip v))) as [c|e] eqn:Ec; cbn [bind].
        - exists [(lit "c", ColorV c)]. split; [constructor; now apply (w_color _ _ a v Ec)|reflexivity].
        - right. exists a, v, (py_strip v). auto. }
      destruct (str_eqb (py_strip a) (lit "bg")) eqn:E3.
      { apply str_eqb_eq in E3. rewrite E3 in Pa. destruct (parse_color (SText (py_strip v))) as [c|e] eqn:Ec; cbn [bind].
        - exists [(lit "bg", ColorV c)]. split; [constructor; now apply (w_back _ _ a v Ec)|reflexivity].
        - right. exists a, v, (py_strip v). auto. }
      destruct (str_eqb a (lit "s")) eqn:E4.
      { apply str_eqb_eq in E4. subst a. destruct (py_float (py_strip v)) as [q|] eqn:Eq; [|left; reflexivity].
        exists [(lit "s", NumV q)]. split; [constructor; now apply (w_size _ _ v Eq)|reflexivity]. }
      destruct (str_eqb a (lit "r")) eqn:E5; [|left; reflexivity].
      { apply str_eqb_eq in E5. subst a. destruct (py_float (py_strip v)) as [q|] eqn:Eq; [|left; reflexivity].
        exists [(lit "r", NumV q)]. split; [constructor; now apply (w_rise _ _ v Eq)|reflexivity]. }
Qed.

Lemma dupdate_app d a b : dupdate d (a ++ b) = dupdate (dupdate d a) b.
Proof. apply fold_left_app. Qed.
Lemma pieces_ok ps : forall st kvss, Forall2 writes_piece ps kvss -> style_pieces st ps = Ok (dupdate st (List.concat kvss)).
Proof.
  induction ps as [|p ps IH]; intros st kvss H; inversion H; subst; cbn [style_pieces List.concat]; [reflexivity|].
  rewrite (writes_piece_ok p _ st H2). cbn [bind]. rewrite dupdate_app. now apply IH.
Qed.
Lemma pieces_inv ps : forall st r, style_pieces st ps = r ->
  match r with
  | Ok st' => exists kvss, Forall2 writes_piece ps kvss /\ st' = dupdate st (List.concat kvss)
  | Err e => e = ValueError \/ exists s, parse_color (SText s) = Err e
  end.
Proof.
  induction ps as [|p ps IH]; intros st r <-; cbn [style_pieces]; [exists []; split; [constructor|reflexivity]|].
  pose proof (piece_inv st p _ eq_refl) as Hp. destruct (style_piece st p) as [st1|e]; cbn [bind].
  - destruct Hp as (kvs & H1 & ->). specialize (IH (dupdate st kvs) _ eq_refl). destruct (style_pieces (dupdate st kvs) ps) as [st'|e].
    + destruct IH as (kvss & H2 & ->). exists (kvs :: kvss). split; [now constructor|]. cbn [List.concat]. now rewrite dupdate_app.
    + exact IH.
  - destruct Hp as [->|(a & v & x & _ & _ & H)]; [now left|right; eauto].
Qed.
Definition no_semicolon (p : str) : Prop := forallb (fun c => negb (59 =? c)) p = true.
Theorem style_string_iff s st : parse_style_str s = Ok st <->
  exists ps kvss, ps <> [] /\ Forall no_semicolon ps /\ s = join 59 ps /\ Forall2 writes_piece ps kvss /\ st = dupdate [] (List.concat kvss).
Proof.
  split.
  - intros E. pose proof (pieces_inv _ _ _ E) as (kvss & H1 & ->). exists (split_on 59 s), kvss.
    split; [apply split_by_nonempty|]. split; [apply split_by_free|]. split; [symmetry; apply split_join_inv|]. auto.
  - intros (ps & kvss & H1 & H2 & -> & H3 & ->). unfold parse_style_str. rewrite split_join; [now apply pieces_ok|exact H1|].
    apply forallb_forall. intros p Hp. rewrite Forall_forall in H2. exact (H2 p Hp).
Qed.
Lemma style_string_err s e : parse_style_str s = Err e -> e = ValueError \/ exists x, parse_color (SText x) = Err e.
Proof. intros E. exact (pieces_inv _ _ _ E). Qed.
(** The value of an attribute is the last one given. *)
Lemma dupdate_get kvs : forall d k, dget k (dupdate d kvs) =
  match find (fun kv => str_eqb k (fst kv)) (rev kvs) with Some kv => Some (snd kv) | None => dget k d end.
Proof.
  induction kvs as [|[n v] kvs IH] using rev_ind; intros d k; [reflexivity|].
  rewrite dupdate_app, rev_app_distr. cbn [rev app find fst dupdate fold_left snd]. destruct (str_eqb k n) eqn:E.
  - apply str_eqb_eq in E. subst n. apply dget_dset_same.
  - rewrite dget_dset_other by (now apply str_eqb_neq). apply IH.
Qed.
End Style.
