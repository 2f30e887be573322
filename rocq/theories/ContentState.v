(** Two boxes in the same state, with other objects in other places, run in the
    same way: for the checkpoints of content boxes. *)
From Coq Require Import QArith ZArith Lia.
From Verif Require Import Py Table Content ContentFlow.
Open Scope list_scope.
Open Scope nat_scope.

Section State.
Context {E O S P L K : Type}.
Variable start : E -> res O.
Variable crun : O -> Q -> Q -> Q -> Q -> res (O * Q * bool * list P * list L).
Variable save : O -> S.
Variable restore : O -> S -> O.
(** What an object was made from: runs do not change it, and together with a
    saved state it says how the object goes on. *)
Variable kind : O -> K.
Hypothesis kind_run : forall o x y w h o' ht fin ps ls, crun o x y w h = Ok (o', ht, fin, ps, ls) -> kind o' = kind o.
Hypothesis kind_restore : forall o sv, kind (restore o sv) = kind o.
Hypothesis same_restore : forall o o' sv, kind o = kind o' -> restore o sv = restore o' sv.
Notation gelem := (@gelem E).
Notation elem := (@elem E).
Notation delem := (@delem E S).
Notation cmem := (@cmem E S).
Notation part := (@part E S).
Notation glob := (@glob O P L).
Notation placed := (@placed O P).
Notation runner := (@runner E O S P L).
(** Whether the numbers of tries are the same in both. *)
Variable strict : bool.

(** Both do the same, or one of them gives up an image or a group. *)
Definition sim {A B} (R : A -> B -> Prop) (a : ans A) (b : ans B) : Prop :=
  match a, b with Done x, Done y => R x y | Raise e, Raise e' => e = e' | Out, Out => True | _, _ => False end \/
  (strict = false /\ (a = Raise PyException \/ b = Raise PyException)).
Lemma sim_done {A B} (R : A -> B -> Prop) x y : R x y -> sim R (Done x) (Done y).
Proof. left; assumption. Qed.
Lemma sim_bind {A B A' B'} (R : A -> B -> Prop) (R' : A' -> B' -> Prop) a b f g :
  sim R a b -> (forall x y, R x y -> sim R' (f x) (g y)) -> sim R' (abind a f) (abind b g).
Proof.
  intros [H|[H H0]] Hf.
  - destruct a, b; try contradiction; cbn [abind]; [apply Hf; exact H|subst; left; reflexivity|left; exact I].
  - right. split; [exact H|]. destruct H0 as [->| ->]; [left|right]; reflexivity.
Qed.
Lemma sim_weak {A B} (R R' : A -> B -> Prop) a b : sim R a b -> (forall x y, R x y -> R' x y) -> sim R' a b.
Proof. intros [H|H] Hw; [left|right; exact H]. destruct a, b; auto. Qed.
Lemma sim_lift {A} (r : res A) : sim eq (lift r) (lift r).
Proof. destruct r; left; reflexivity. Qed.

Definition ext (h h1 : list O) : Prop := forall r o, nth_error h r = Some o -> exists o1, nth_error h1 r = Some o1 /\ kind o1 = kind o.
Lemma ext_refl h : ext h h.
Proof. intros r o H. eauto. Qed.
Lemma ext_trans a b c : ext a b -> ext b c -> ext a c.
Proof. intros H1 H2 r o H. destruct (H1 r o H) as (o1 & H3 & H4). destruct (H2 r o1 H3) as (o2 & H5 & H6). exists o2. split; congruence. Qed.

Definition rd (h h' : list O) (d d' : delem) : Prop :=
  match d, d' with
  | DLeaf s r sv, DLeaf s' r' sv' => s' = s /\ sv' = sv /\ exists o o', nth_error h r = Some o /\ nth_error h' r' = Some o' /\ kind o = kind o'
  | DImage s iw ih t, DImage s' iw' ih' t' => s' = s /\ iw' = iw /\ ih' = ih /\ (strict = true -> t' = t)
  | DGroup s l t, DGroup s' l' t' => s' = s /\ l' = l /\ (strict = true -> t' = t)
  | _, _ => False
  end.
Definition re (h h' : list O) (a b : nat * list delem) : Prop := fst b = fst a /\ Forall2 (rd h h') (snd a) (snd b).
Definition ro {A B} (R : A -> B -> Prop) (a : option A) (b : option B) : Prop := match a, b with Some x, Some y => R x y | None, None => True | _, _ => False end.
Definition swap (f : part) (sd dl : list delem) (m : cmem) (p : option cmem) : part :=
  mkPart (f_elems f) (f_cols f) (f_gapspec f) (f_last f) (f_sindex f) sd m p (f_minx f) (f_miny f) (f_maxy f)
    (f_y f) (f_column f) (f_starting f) (f_lastbottom f) (f_gap f) (f_colw f) (f_index f) dl (f_will f) (f_resetting f) (f_pindex f) (f_difflast f) (f_diff f) (f_forward f).
(** Parts with the same fields, and related delayed elements and memories. *)
Definition rf (h h' : list O) (f f' : part) : Prop :=
  exists sd dl m p, f' = swap f sd dl m p /\ Forall2 (rd h h') (f_sdelayed f) sd /\ Forall2 (rd h h') (f_delayed f) dl /\
    Forall2 (re h h') (f_memory f) m /\ ro (Forall2 (re h h')) (f_partial f) p.
Definition rg (g g' : glob) : Prop := g_parts g' = g_parts g /\ g_lines g' = g_lines g /\ (strict = true -> forall i, g_tries g' i = g_tries g i).
(** What does not change in a box; a box with one column never has a partial
    memory. *)
Definition single (f : part) : Prop := f_cols f = 1 -> f_column f = 0 /\ f_partial f = None.
Definition stat (f f1 : part) : Prop :=
  f_elems f1 = f_elems f /\ f_cols f1 = f_cols f /\ f_gapspec f1 = f_gapspec f /\ f_last f1 = f_last f /\ (single f -> single f1).

Lemma stat_refl f : stat f f.
Proof. repeat split; auto; intros; apply H; auto. Qed.
Lemma stat_trans a b c : stat a b -> stat b c -> stat a c.
Proof. intros (A1 & A2 & A3 & A4 & A5) (B1 & B2 & B3 & B4 & B5). unfold stat. rewrite B1, B2, B3, B4. repeat (split; [assumption|]). auto. Qed.
Lemma stat_y f y st lb : stat f (with_y f y st lb).
Proof. unfold stat, single. cbn. tauto. Qed.
Lemma stat_todo f i d : stat f (with_todo f i d).
Proof. unfold stat, single. cbn. tauto. Qed.
Lemma stat_section f i d m : stat f (with_section f i d m).
Proof. unfold stat, single. cbn. tauto. Qed.
Lemma stat_reset f a b c d e i : stat f (with_reset f a b c d e i).
Proof. unfold stat, single. cbn. tauto. Qed.
Lemma stat_moved f x y n : stat f (moved f x y n).
Proof. unfold stat, single. cbn. tauto. Qed.
Lemma stat_consumed f : stat f (with_partial f None).
Proof. unfold stat, single. cbn. tauto. Qed.
Lemma stat_column f n p : f_cols f <> 1 -> stat f (with_partial (with_column f n) p) /\ stat f (with_column f n).
Proof. unfold stat, single. cbn. tauto. Qed.
Lemma F2_refl {A} (R : A -> A -> Prop) (l : list A) : (forall x, R x x) -> Forall2 R l l.
Proof. intros H. induction l; constructor; auto. Qed.
Lemma F2_trans {A} (R : A -> A -> Prop) : (forall a b c, R a b -> R b c -> R a c) -> forall x y z, Forall2 R x y -> Forall2 R y z -> Forall2 R x z.
Proof. intros H x y z H1. revert z. induction H1; intros z H2; inversion H2; subst; constructor; eauto. Qed.
Lemma F2_mono {A B} (R R' : A -> B -> Prop) l l' : (forall a b, R a b -> R' a b) -> Forall2 R l l' -> Forall2 R' l l'.
Proof. intros H. induction 1; constructor; auto. Qed.

Lemma rd_ext h h' h1 h1' d d' : ext h h1 -> ext h' h1' -> rd h h' d d' -> rd h1 h1' d d'.
Proof.
  intros H1 H2. destruct d, d'; cbn [rd]; try tauto. intros (A1 & A2 & o & o' & A3 & A4 & A5). split; [exact A1|]. split; [exact A2|].
  destruct (H1 _ _ A3) as (o1 & B1 & B2). destruct (H2 _ _ A4) as (o2 & B3 & B4). exists o1, o2. repeat split; congruence.
Qed.
Lemma rds_ext h h' h1 h1' l l' : ext h h1 -> ext h' h1' -> Forall2 (rd h h') l l' -> Forall2 (rd h1 h1') l l'.
Proof. intros H1 H2. apply F2_mono. intros a b. apply rd_ext; assumption. Qed.
Lemma res_ext h h' h1 h1' l l' : ext h h1 -> ext h' h1' -> Forall2 (re h h') l l' -> Forall2 (re h1 h1') l l'.
Proof. intros H1 H2. apply F2_mono. intros a b [A1 A2]. split; [exact A1|]. eapply rds_ext; eassumption. Qed.
Lemma rf_ext h h' h1 h1' f f' : ext h h1 -> ext h' h1' -> rf h h' f f' -> rf h1 h1' f f'.
Proof.
  intros H1 H2 (sd & dl & m & p & -> & A1 & A2 & A3 & A4). exists sd, dl, m, p. split; [reflexivity|].
  split; [eapply rds_ext; eassumption|]. split; [eapply rds_ext; eassumption|]. split; [eapply res_ext; eassumption|].
  destruct (f_partial f), p; cbn [ro] in *; try tauto. eapply res_ext; eassumption.
Qed.
Lemma rfs_ext h h' h1 h1' l l' : ext h h1 -> ext h' h1' -> Forall2 (rf h h') l l' -> Forall2 (rf h1 h1') l l'.
Proof. intros H1 H2. apply F2_mono. intros a b. apply rf_ext; assumption. Qed.

Lemma rf_y h h' f f' y st lb : rf h h' f f' -> rf h h' (with_y f y st lb) (with_y f' y st lb).
Proof. intros (sd & dl & m & p & -> & H). exists sd, dl, m, p. split; [reflexivity|exact H]. Qed.
Lemma rf_todo h h' f f' i d d' : rf h h' f f' -> Forall2 (rd h h') d d' -> rf h h' (with_todo f i d) (with_todo f' i d').
Proof. intros (sd & dl & m & p & -> & H1 & H2 & H3 & H4) H. exists sd, d', m, p. split; [reflexivity|]. repeat split; assumption. Qed.
Lemma rf_section h h' f f' i d d' m m' : rf h h' f f' -> Forall2 (rd h h') d d' -> Forall2 (re h h') m m' -> rf h h' (with_section f i d m) (with_section f' i d' m').
Proof. intros (sd & dl & m0 & p & -> & H1 & H2 & H3 & H4) H H0. exists d', dl, m', p. split; [reflexivity|]. repeat split; assumption. Qed.
Lemma rf_partial h h' f f' m m' : rf h h' f f' -> ro (Forall2 (re h h')) m m' -> rf h h' (with_partial f m) (with_partial f' m').
Proof. intros (sd & dl & m0 & p & -> & H1 & H2 & H3 & H4) H. exists sd, dl, m0, m'. split; [reflexivity|]. repeat split; assumption. Qed.
Lemma rf_reset h h' f f' a b c d e i : rf h h' f f' -> rf h h' (with_reset f a b c d e i) (with_reset f' a b c d e i).
Proof. intros (sd & dl & m & p & -> & H). exists sd, dl, m, p. split; [reflexivity|exact H]. Qed.
Lemma rf_column h h' f f' n : rf h h' f f' -> rf h h' (with_column f n) (with_column f' n).
Proof. intros (sd & dl & m & p & -> & H). exists sd, dl, m, p. split; [reflexivity|exact H]. Qed.
Lemma rf_moved h h' f f' x y n : rf h h' f f' -> rf h h' (moved f x y n) (moved f' x y n).
Proof. intros (sd & dl & m & p & -> & H). exists sd, dl, m, p. split; [reflexivity|exact H]. Qed.
Lemma rf_space h h' f f' s top : rf h h' f f' -> space f' s top = space f s top.
Proof. intros (sd & dl & m & p & -> & H). reflexivity. Qed.
Lemma rf_delayed h h' f f' : rf h h' f f' -> Forall2 (rd h h') (f_delayed f) (f_delayed f').
Proof. intros (sd & dl & m & p & -> & _ & H & _). exact H. Qed.
Lemma rf_sdelayed h h' f f' : rf h h' f f' -> Forall2 (rd h h') (f_sdelayed f) (f_sdelayed f').
Proof. intros (sd & dl & m & p & -> & H & _). exact H. Qed.
Lemma rf_memory h h' f f' : rf h h' f f' -> Forall2 (re h h') (f_memory f) (f_memory f').
Proof. intros (sd & dl & m & p & -> & _ & _ & H & _). exact H. Qed.
Lemma rf_part h h' f f' : rf h h' f f' -> ro (Forall2 (re h h')) (f_partial f) (f_partial f').
Proof. intros (sd & dl & m & p & -> & _ & _ & _ & H). exact H. Qed.
(** The other fields. *)
Lemma rf_rest h h' f f' : rf h h' f f' -> f' = swap f (f_sdelayed f') (f_delayed f') (f_memory f') (f_partial f').
Proof. intros (sd & dl & m & p & -> & _). reflexivity. Qed.

Definition rret (h h' : list O) (r r' : @ret E S) : Prop := ro (rd h h') (r_delayed r) (r_delayed r') /\ r_next r' = r_next r /\ r_flow r' = r_flow r.
(** The result of a step that leaves the ancestors alone. *)
Definition stepped (f : part) (g g' : glob) (x y : @ret E S * part * glob) : Prop :=
  let '(r, f1, g1) := x in let '(r', f1', g1') := y in
  rret (g_heap g1) (g_heap g1') r r' /\ rf (g_heap g1) (g_heap g1') f1 f1' /\ rg g1 g1' /\
  ext (g_heap g) (g_heap g1) /\ ext (g_heap g') (g_heap g1') /\ stat f f1.

Lemma nth_error_firstn' {A} (l : list A) n r : r < n -> nth_error (firstn n l) r = nth_error l r.
Proof. revert n r. induction l as [|a l IH]; intros [|n] [|r] H; try lia; cbn; auto. apply IH. lia. Qed.
Lemma nth_error_skipn' {A} (l : list A) n r : nth_error (skipn n l) r = nth_error l (n + r).
Proof. revert n r. induction l as [|a l IH]; intros [|n] r; cbn; auto. destruct r; reflexivity. Qed.
Lemma ext_snoc h (o : O) : ext h (h ++ [o]).
Proof. intros r x H. exists x. split; [|reflexivity]. rewrite nth_error_app1; [exact H|]. apply nth_error_Some. congruence. Qed.
Lemma ext_hset h n (o o1 : O) : nth_error h n = Some o -> kind o1 = kind o -> ext h (hset n o1 h).
Proof.
  intros Hn Hk r x Hr. assert (Hl : n < length h) by (apply nth_error_Some; congruence).
  assert (Hr1 : r < length h) by (apply nth_error_Some; congruence). unfold hset.
  assert (Hf : length (firstn n h) = n) by (rewrite firstn_length; lia).
  destruct (Nat.lt_trichotomy r n) as [K1|[K1|K1]].
  - exists x. rewrite nth_error_app1 by lia. rewrite nth_error_firstn' by lia. auto.
  - subst r. exists o1. rewrite nth_error_app2 by lia. rewrite Hf, Nat.sub_diag. split; [reflexivity|]. congruence.
  - exists x. rewrite nth_error_app2 by lia. rewrite Hf. destruct (r - n) as [|k] eqn:Ek; [lia|]. cbn [nth_error].
    rewrite nth_error_skipn'. replace (Datatypes.S n + k) with r by lia. auto.
Qed.

Definition rsrc (h h' : list O) (a b : E + nat * S) : Prop :=
  match a, b with
  | inl e, inl e' => e' = e
  | inr (r, sv), inr (r', sv') => sv' = sv /\ exists o o', nth_error h r = Some o /\ nth_error h' r' = Some o' /\ kind o = kind o'
  | _, _ => False
  end.
Lemma leaf_sim f f' g g' s src src' add top : rf (g_heap g) (g_heap g') f f' -> rg g g' -> rsrc (g_heap g) (g_heap g') src src' ->
  sim (stepped f g g') (process_leaf start crun save restore f g s src add top) (process_leaf start crun save restore f' g' s src' add top).
Proof.
  intros Hf (G1 & G2 & G3) Hs. unfold process_leaf. rewrite (rf_space _ _ _ _ s top Hf). destruct (space f s top) as [[[x y] w] ht0].
  apply sim_bind with (R := fun a b => snd b = snd a /\ ((fst a = length (g_heap g) /\ fst b = length (g_heap g')) \/
    exists o0 o0', nth_error (g_heap g) (fst a) = Some o0 /\ nth_error (g_heap g') (fst b) = Some o0' /\ kind o0 = kind (snd a) /\ kind o0' = kind (snd a))).
  { destruct src as [e|[r sv]], src' as [e'|[r' sv']]; cbn [rsrc] in Hs; try contradiction.
    - subst e'. apply sim_bind with (R := eq); [apply sim_lift|]. intros a b <-. apply sim_done. cbn. split; [reflexivity|]. left. auto.
    - destruct Hs as [-> (o & o' & H1 & H2 & H3)]. rewrite H1, H2. apply sim_done. cbn [fst snd]. rewrite (same_restore o o' sv H3). split; [reflexivity|]. right.
      exists o, o'. rewrite kind_restore. auto. }
  intros [ref o] [ref' o'] [Ho Hr]. cbn [fst snd] in *. subst o'.
  destruct (crun o x y w ht0) as [[[[[o1 height] fin] ps] ls]|e] eqn:Ec; cbn [lift abind]; [|left; reflexivity].
  pose proof (kind_run _ _ _ _ _ _ _ _ _ _ Ec) as Hk.
  assert (HH : forall (h : list O) r, (r = length h \/ exists o0, nth_error h r = Some o0 /\ kind o0 = kind o) ->
     let h1 := if r =? length h then h ++ [o1] else hset r o1 h in ext h h1 /\ nth_error h1 r = Some o1).
  { intros h r Hx. cbv zeta. destruct (Nat.eqb_spec r (length h)) as [->|Hne].
    - split; [apply ext_snoc|apply nth_snoc].
    - destruct Hx as [Hx|(o0 & X1 & X2)]; [congruence|]. split; [apply (ext_hset h r o0); congruence|]. apply nth_hset. apply nth_error_Some. congruence. }
  assert (H1 : ref = length (g_heap g) \/ exists o0, nth_error (g_heap g) ref = Some o0 /\ kind o0 = kind o) by (destruct Hr as [[Hr _]|(a & b & R1 & R2 & R3 & R4)]; [auto|eauto]).
  assert (H2 : ref' = length (g_heap g') \/ exists o0, nth_error (g_heap g') ref' = Some o0 /\ kind o0 = kind o) by (destruct Hr as [[_ Hr]|(a & b & R1 & R2 & R3 & R4)]; [auto|eauto]).
  destruct (HH _ _ H1) as [X1 X2]. destruct (HH _ _ H2) as [X3 X4]. apply sim_done. unfold stepped. cbn [g_heap g_parts g_lines g_tries].
  split; [|split; [|split; [|split; [exact X1|split; [exact X3|]]]]].
  - destruct fin; [repeat split|]. unfold rret. cbn [r_delayed r_next r_flow ro rd]. repeat split; eauto.
  - assert (Hf1 := rf_ext _ _ _ _ _ _ X1 X3 Hf). pose proof (rf_rest _ _ _ _ Hf) as He. rewrite He. cbn [swap f_y f_starting f_lastbottom]. rewrite <- He. destruct (qlt 0 height); apply rf_y; exact Hf1.
  - unfold rg. cbn [g_parts g_lines g_tries]. rewrite G1, G2. destruct add; repeat split; auto.
  - destruct (qlt 0 height); apply stat_y.
Qed.

Lemma image_sim f f' (g g' : glob) s min shrink iw ih add top : rf (g_heap g) (g_heap g') f f' -> rg g g' ->
  let '(ok, f1, g1) := process_image f g s min shrink iw ih add top in
  let '(ok', f1', g1') := process_image f' g' s min shrink iw ih add top in
  ok' = ok /\ rf (g_heap g) (g_heap g') f1 f1' /\ rg g1 g1' /\ g_heap g1 = g_heap g /\ g_heap g1' = g_heap g' /\ g_tries g1 = g_tries g /\ g_tries g1' = g_tries g' /\ stat f f1.
Proof.
  intros Hf (G1 & G2 & G3). unfold process_image. rewrite (rf_space _ _ _ _ s top Hf). destruct (space f s top) as [[[x y] w] h].
  assert (Hgo : forall y0 st lb pl, true = true /\ rf (g_heap g) (g_heap g') (with_y f y0 st lb) (with_y f' y0 st lb) /\
     rg (if add then with_parts g (g_parts g ++ [pl]) else g) (if add then with_parts g' (g_parts g' ++ [pl]) else g') /\
     g_heap (if add then with_parts g (g_parts g ++ [pl]) else g) = g_heap g /\ g_heap (if add then with_parts g' (g_parts g' ++ [pl]) else g') = g_heap g' /\
     g_tries (if add then with_parts g (g_parts g ++ [pl]) else g) = g_tries g /\ g_tries (if add then with_parts g' (g_parts g' ++ [pl]) else g') = g_tries g' /\ stat f (with_y f y0 st lb)).
  { intros y0 st lb pl. split; [reflexivity|]. split; [apply rf_y; exact Hf|]. split; [destruct add; [|repeat split; assumption]; unfold rg; cbn [with_parts g_parts g_lines g_tries]; rewrite G1; repeat split; assumption|]. do 4 (split; [destruct add; reflexivity|]). apply stat_y. }
  assert (Hno : false = false /\ rf (g_heap g) (g_heap g') (with_y f (f_y f) (f_starting f) (f_lastbottom f)) (with_y f' (f_y f') (f_starting f') (f_lastbottom f')) /\
     rg g g' /\ g_heap g = g_heap g /\ g_heap g' = g_heap g' /\ g_tries g = g_tries g /\ g_tries g' = g_tries g' /\ stat f (with_y f (f_y f) (f_starting f) (f_lastbottom f))).
  { split; [reflexivity|]. split. { pose proof (rf_rest _ _ _ _ Hf) as He. rewrite He. cbn [swap f_y f_starting f_lastbottom]. rewrite <- He. apply rf_y; exact Hf. }
    split; [repeat split; assumption|]. do 4 (split; [reflexivity|]). apply stat_y. }
  cbv zeta. destruct (qlt (w * ih / iw) h); [apply Hgo|]. destruct min as [m|]; [|exact Hno]. destruct (Qle_bool m h); [apply Hgo|exact Hno].
Qed.

(** The result of a step inside a group. *)
Definition gstepped (f : part) (g g' : glob) (x y : bool * part * glob) : Prop :=
  let '(ok, f1, g1) := x in let '(ok', f1', g1') := y in
  ok' = ok /\ rf (g_heap g1) (g_heap g1') f1 f1' /\ rg g1 g1' /\ ext (g_heap g) (g_heap g1) /\ ext (g_heap g') (g_heap g1') /\ stat f f1.
Lemma group_element_sim f f' g g' el min add top : rf (g_heap g) (g_heap g') f f' -> rg g g' ->
  sim (gstepped f g g') (group_element start crun save restore f g el min add top) (group_element start crun save restore f' g' el min add top).
Proof.
  intros Hf Hg. destruct el as [s e|s iw ih|]; cbn [group_element].
  - apply sim_bind with (R := stepped f g g'); [apply leaf_sim; [exact Hf|exact Hg|reflexivity]|].
    intros [[r f1] g1] [[r' f1'] g1'] ((A1 & _ & _) & A2 & A3 & A4 & A5 & A6). apply sim_done. cbn [gstepped]. destruct (r_delayed r), (r_delayed r'); cbn [ro] in A1; try contradiction; auto 10.
  - apply sim_done. pose proof (image_sim f f' g g' s (match min with Some m => Some m | None => s_min s end) true iw ih add top Hf Hg) as H.
    destruct (process_image f g _ _ _ _ _ _ _) as [[ok f1] g1]. destruct (process_image f' g' _ _ _ _ _ _ _) as [[ok' f1'] g1'].
    destruct H as (A1 & A2 & A3 & A4 & A5 & _ & _ & A6). cbn [gstepped]. rewrite A4, A5. repeat (split; [first [assumption|apply ext_refl]|]). exact A6.
  - left. reflexivity.
Qed.
Lemma group_try_sim : forall l f f' g g' first, rf (g_heap g) (g_heap g') f f' -> rg g g' ->
  sim (gstepped f g g') (group_try start crun save restore f g first l) (group_try start crun save restore f' g' first l).
Proof.
  induction l as [|el l IH]; intros f f' g g' first Hf Hg; cbn [group_try].
  - apply sim_done. cbn. repeat (split; [first [assumption|reflexivity|apply ext_refl]|]). apply stat_refl.
  - eapply sim_bind; [apply group_element_sim; [exact Hf|exact Hg]|]. intros [[ok f1] g1] [[ok' f1'] g1'] (-> & A2 & A3 & A4 & A5 & A6). destruct ok.
    + specialize (IH f1 f1' g1 g1' false A2 A3). eapply sim_weak; [exact IH|]. intros [[ok2 f2] g2] [[ok2' f2'] g2'] (-> & B2 & B3 & B4 & B5 & B6).
      cbn. repeat (split; [first [assumption|reflexivity|eapply ext_trans; eassumption]|]). eapply stat_trans; eassumption.
    + apply sim_done. cbn. auto 10.
Qed.
Definition astepped (f : part) (g g' : glob) (x y : part * glob) : Prop :=
  let '(f1, g1) := x in let '(f1', g1') := y in
  rf (g_heap g1) (g_heap g1') f1 f1' /\ rg g1 g1' /\ ext (g_heap g) (g_heap g1) /\ ext (g_heap g') (g_heap g1') /\ stat f f1.
Lemma group_add_sim : forall l f f' g g' ratio first, rf (g_heap g) (g_heap g') f f' -> rg g g' ->
  sim (astepped f g g') (group_add start crun save restore f g ratio first l) (group_add start crun save restore f' g' ratio first l).
Proof.
  induction l as [|el l IH]; intros f f' g g' ratio first Hf Hg; cbn [group_add].
  - apply sim_done. cbn. repeat (split; [first [assumption|reflexivity|apply ext_refl]|]). apply stat_refl.
  - eapply sim_bind; [apply group_element_sim; [exact Hf|exact Hg]|]. intros [[ok f1] g1] [[ok' f1'] g1'] (_ & A2 & A3 & A4 & A5 & A6).
    specialize (IH f1 f1' g1 g1' ratio false A2 A3). eapply sim_weak; [exact IH|]. intros [f2 g2] [f2' g2'] (B2 & B3 & B4 & B5 & B6).
    cbn. repeat (split; [first [assumption|reflexivity|eapply ext_trans; eassumption]|]). eapply stat_trans; eassumption.
Qed.
Lemma limit_sim {A B} (R : A -> B -> Prop) t t' a b : (strict = true -> t' = t) -> R a b ->
  sim R (if 50 <=? t then Raise PyException else Done a) (if 50 <=? t' then Raise PyException else Done b).
Proof.
  intros H HR. destruct strict eqn:Es.
  - rewrite (H eq_refl). destruct (50 <=? t); left; [reflexivity|exact HR].
  - destruct (50 <=? t) eqn:E1; [right; auto|]. destruct (50 <=? t') eqn:E2; [right; auto|]. left. exact HR.
Qed.
Lemma group_sim f f' g g' s l t t' : rf (g_heap g) (g_heap g') f f' -> rg g g' -> (strict = true -> t' = t) ->
  sim (stepped f g g') (process_group start crun save restore f g s l t) (process_group start crun save restore f' g' s l t').
Proof.
  intros Hf Hg Ht. unfold process_group. cbv zeta.
  assert (Hy : f_y f' = f_y f /\ f_starting f' = f_starting f /\ f_lastbottom f' = f_lastbottom f) by (rewrite (rf_rest _ _ _ _ Hf); repeat split). destruct Hy as (Y1 & Y2 & Y3). rewrite Y1, Y2, Y3.
  eapply sim_bind; [apply group_try_sim; [apply rf_y; exact Hf|exact Hg]|].
  intros [[ok f1] g1] [[ok' f1'] g1'] (-> & A2 & A3 & A4 & A5 & A6).
  assert (Z : f_y f1' = f_y f1 /\ f_maxy f1' = f_maxy f1 /\ f_starting f1' = f_starting f1 /\ f_lastbottom f1' = f_lastbottom f1) by (rewrite (rf_rest _ _ _ _ A2); repeat split). destruct Z as (Z1 & Z2 & Z3 & Z4). rewrite Z1, Z2, Z3, Z4.
  assert (A7 : stat f f1) by (eapply stat_trans; [apply stat_y|exact A6]). destruct ok.
  - match goal with |- sim _ (abind ?e _) _ => destruct e as [ratio| |] end; cbn [abind]; [|left; reflexivity|left; exact I].
    eapply sim_bind; [apply group_add_sim; [apply rf_y; exact A2|exact A3]|].
    intros [f2 g2] [f2' g2'] (B2 & B3 & B4 & B5 & B6). apply sim_done. cbn. split; [repeat split|].
    split; [exact B2|]. split; [exact B3|]. split; [eapply ext_trans; eassumption|]. split; [eapply ext_trans; eassumption|]. eapply stat_trans; [exact A7|]. eapply stat_trans; [apply stat_y|exact B6].
  - apply limit_sim; [exact Ht|]. cbn. split.
    + split; [|split; reflexivity]. cbn. repeat split; auto.
    + split; [apply rf_y; exact A2|]. split; [exact A3|]. split; [exact A4|]. split; [exact A5|]. eapply stat_trans; [exact A7|apply stat_y].
Qed.
Lemma image_ret_sim h h' s iw ih t t' : (strict = true -> t' = t) -> sim (rret h h') (image_ret s iw ih t) (image_ret s iw ih t').
Proof. intros Ht. unfold image_ret. apply limit_sim; [exact Ht|]. split; [cbn; repeat split; auto|split; reflexivity]. Qed.
Lemma delayed_sim f f' g g' d d' : rf (g_heap g) (g_heap g') f f' -> rg g g' -> rd (g_heap g) (g_heap g') d d' ->
  sim (stepped f g g') (process_delayed start crun save restore f g d) (process_delayed start crun save restore f' g' d').
Proof.
  intros Hf Hg Hd. destruct d as [s r sv|s iw ih t|s l t], d' as [s' r' sv'|s' iw' ih' t'|s' l' t']; cbn [rd] in Hd; try contradiction; cbn [process_delayed].
  - destruct Hd as (-> & -> & Hd). apply leaf_sim; [exact Hf|exact Hg|]. cbn. auto.
  - destruct Hd as (-> & -> & -> & Ht). pose proof (image_sim f f' g g' s (s_min s) (s_shrink s) iw ih true true Hf Hg) as H.
    destruct (process_image f g _ _ _ _ _ _ _) as [[ok f1] g1]. destruct (process_image f' g' _ _ _ _ _ _ _) as [[ok' f1'] g1'].
    destruct H as (-> & A2 & A3 & A4 & A5 & _ & _ & A6). destruct ok.
    + apply sim_done. cbn. rewrite A4, A5. split; [repeat split|]. repeat (split; [first [assumption|apply ext_refl]|]). exact A6.
    + apply sim_bind with (R := rret (g_heap g1) (g_heap g1')); [apply image_ret_sim; exact Ht|]. intros r r' Hr. apply sim_done. cbn [stepped]. split; [exact Hr|]. rewrite A4, A5. repeat (split; [first [assumption|apply ext_refl]|]). exact A6.
  - destruct Hd as (-> & -> & Ht). apply group_sim; assumption.
Qed.

Lemma F2_nth {A B} (R : A -> B -> Prop) l l' n : Forall2 R l l' ->
  match nth_error l n, nth_error l' n with Some a, Some b => R a b | None, None => True | _, _ => False end.
Proof. intros H. revert n. induction H as [|a b l l' H1 H2 IH]; intros [|n]; cbn; auto. apply IH. Qed.
Lemma F2_firstn {A B} (R : A -> B -> Prop) l l' n : Forall2 R l l' -> Forall2 R (firstn n l) (firstn n l').
Proof. intros H. revert n. induction H; intros [|n]; cbn; constructor; auto. Qed.
Lemma F2_skipn {A B} (R : A -> B -> Prop) l l' n : Forall2 R l l' -> Forall2 R (skipn n l) (skipn n l').
Proof. intros H. revert n. induction H; intros [|n]; cbn; auto. Qed.
Lemma F2_len {A B} (R : A -> B -> Prop) l l' : Forall2 R l l' -> length l = length l'.
Proof. induction 1; cbn; congruence. Qed.
Lemma F2_replace h h' n d d' l l' : Forall2 (rd h h') l l' -> ro (rd h h') d d' -> Forall2 (rd h h') (replace_nth n d l) (replace_nth n d' l').
Proof.
  intros Hl Hd. unfold replace_nth. apply Forall2_app; [apply F2_firstn; exact Hl|]. apply Forall2_app; [|apply F2_skipn; exact Hl].
  destruct d, d'; cbn [ro] in Hd; try contradiction; [constructor; [exact Hd|constructor]|constructor].
Qed.
Definition dstepped (f : part) (g g' : glob) (x y : answer * part * glob) : Prop :=
  let '(a, f1, g1) := x in let '(a', f1', g1') := y in
  a' = a /\ rf (g_heap g1) (g_heap g1') f1 f1' /\ rg g1 g1' /\ ext (g_heap g) (g_heap g1) /\ ext (g_heap g') (g_heap g1') /\ stat f f1.
Lemma add_delayed_sim : forall fuel n f f' g g', rf (g_heap g) (g_heap g') f f' -> rg g g' ->
  sim (dstepped f g g') (add_delayed start crun save restore fuel n f g) (add_delayed start crun save restore fuel n f' g').
Proof.
  induction fuel as [|fuel IH]; intros n f f' g g' Hf Hg; cbn [add_delayed]; [left; exact I|].
  pose proof (rf_delayed _ _ _ _ Hf) as Hd. pose proof (F2_nth _ _ _ n Hd) as Hn.
  destruct (nth_error (f_delayed f) n) as [d|], (nth_error (f_delayed f') n) as [d'|]; try contradiction.
  - eapply sim_bind; [apply delayed_sim; [exact Hf|exact Hg|exact Hn]|].
    intros [[r f1] g1] [[r' f1'] g1'] ((A1 & A1' & A1'') & A2 & A3 & A4 & A5 & A6). cbv zeta.
    assert (Hi : f_index f1' = f_index f1) by (rewrite (rf_rest _ _ _ _ A2); reflexivity).
    assert (Hf2 : rf (g_heap g1) (g_heap g1') (with_todo f1 (f_index f1) (replace_nth n (r_delayed r) (f_delayed f1))) (with_todo f1' (f_index f1') (replace_nth n (r_delayed r') (f_delayed f1')))).
    { rewrite Hi. apply rf_todo; [exact A2|]. apply F2_replace; [apply (rf_delayed _ _ _ _ A2)|exact A1]. }
    rewrite A1'. destruct (r_next r).
    + apply sim_done. cbn [dstepped]. split; [reflexivity|]. split; [exact Hf2|]. split; [exact A3|]. split; [exact A4|]. split; [exact A5|]. eapply stat_trans; [exact A6|apply stat_todo].
    + rewrite A1''. eapply sim_weak; [apply IH; [exact Hf2|exact A3]|]. intros [[a f2] g2] [[a' f2'] g2'] (-> & B2 & B3 & B4 & B5 & B6). cbn [dstepped]. split; [reflexivity|]. split; [exact B2|]. split; [exact B3|].
      split; [eapply ext_trans; eassumption|]. split; [eapply ext_trans; eassumption|]. eapply stat_trans; [exact A6|]. eapply stat_trans; [apply stat_todo|exact B6].
  - apply sim_done. cbn [dstepped]. split; [|split; [exact Hf|split; [exact Hg|split; [apply ext_refl|split; [apply ext_refl|apply stat_refl]]]]].
    destruct Hd; [reflexivity|]. rewrite (rf_rest _ _ _ _ Hf). reflexivity.
Qed.

(** The result of a step, with the boxes around. *)
Definition full {A} (Ra : list O -> list O -> A -> A -> Prop) (f : part) (anc : list part) (g g' : glob) (x y : A * (part * list part * glob)) : Prop :=
  let '(a, (f1, anc1, g1)) := x in let '(a', (f1', anc1', g1')) := y in
  Ra (g_heap g1) (g_heap g1') a a' /\ rf (g_heap g1) (g_heap g1') f1 f1' /\ Forall2 (rf (g_heap g1) (g_heap g1')) anc1 anc1' /\ rg g1 g1' /\
  ext (g_heap g) (g_heap g1) /\ ext (g_heap g') (g_heap g1') /\ stat f f1 /\ Forall2 stat anc anc1.
Definition same {A} (h h' : list O) (a a' : A) : Prop := a' = a.
Definition rans (h h' : list O) (a a' : action + @ret E S) : Prop := match a, a' with inl x, inl y => y = x | inr x, inr y => rret h h' x y | _, _ => False end.
Definition simrec (rec : runner) : Prop := forall f f' anc anc' g g', rf (g_heap g) (g_heap g') f f' -> Forall2 (rf (g_heap g) (g_heap g')) anc anc' -> rg g g' ->
  sim (full same f anc g g') (rec f anc g) (rec f' anc' g').
Lemma stats_refl l : Forall2 stat l l.
Proof. apply F2_refl. apply stat_refl. Qed.
Lemma stats_trans a b c : Forall2 stat a b -> Forall2 stat b c -> Forall2 stat a c.
Proof. apply F2_trans. apply stat_trans. Qed.

Lemma setup_sim h h' f f' a b c d n : rf h h' f f' -> sim (fun x y => rf h h' x y /\ stat f x) (setup a b c d n f) (setup a b c d n f').
Proof.
  intros Hf. destruct Hf as (sd & dl & m & p & -> & H1 & H2 & H3 & H4). unfold setup. cbn [swap f_cols f_gapspec f_elems f_last f_sindex f_sdelayed f_memory f_partial].
  destruct (f_cols f) as [|k] eqn:Ek; [left; reflexivity|]. apply sim_done. split; [exists sd, sd, m, p; repeat split; assumption|].
  unfold stat, single. cbn. rewrite <- Ek. repeat (split; [reflexivity|]). tauto.
Qed.
Lemma rev_cons_F2 {A B} (R : A -> B -> Prop) l l' : Forall2 R l l' ->
  match rev l, rev l' with a :: r, b :: r' => R a b /\ Forall2 R (rev r) (rev r') | [], [] => True | _, _ => False end.
Proof.
  intros H. assert (Hr : Forall2 R (rev l) (rev l')) by (induction H; cbn; [constructor|apply Forall2_app; auto]).
  destruct Hr as [|a b r r' H1 H2]; [exact I|]. split; [exact H1|]. clear -H2. induction H2; cbn; [constructor|apply Forall2_app; auto].
Qed.
Lemma child_sim rec f f' anc anc' g g' s cols gap l lst : simrec rec ->
  rf (g_heap g) (g_heap g') f f' -> Forall2 (rf (g_heap g) (g_heap g')) anc anc' -> rg g g' ->
  sim (full rans f anc g g') (process_child rec f anc g s cols gap l lst) (process_child rec f' anc' g' s cols gap l lst).
Proof.
  intros Hrec Hf Ha Hg. unfold process_child. rewrite (rf_space _ _ _ _ s true Hf). destruct (space f s true) as [[[x y] w] ht]. cbv zeta.
  pose proof (rf_rest _ _ _ _ Hf) as He.
  assert (F : f_starting f' = f_starting f /\ f_lastbottom f' = f_lastbottom f /\ left_edge f' = left_edge f /\ f_colw f' = f_colw f /\ f_maxy f' = f_maxy f /\ f_index f' = f_index f /\ f_sindex f' = f_sindex f /\ f_y f' = f_y f)
    by (rewrite He; repeat split).
  destruct F as (F1 & F2 & F3 & F4 & F5 & F6 & F7 & F8). rewrite F1, F2, F3, F4, F5, F6, F7, F8. destruct Hg as (G1 & G2 & G3). rewrite G1.
  apply sim_bind with (R := fun a b => rf (g_heap g) (g_heap g') a b).
  { eapply sim_weak; [apply setup_sim; eexists [], [], [], None; split; [reflexivity|]; repeat split; constructor|]. intros a b [H _]; exact H. }
  intros c0 c0' Hc0. pose proof (rf_memory _ _ _ _ Hf) as Hm. pose proof (rf_part _ _ _ _ Hf) as Hp.
  set (mem := if match f_memory f with [] => false | _ => f_index f =? f_sindex f end then Some (f_memory f) else f_partial f).
  set (mem' := if match f_memory f' with [] => false | _ => f_index f =? f_sindex f end then Some (f_memory f') else f_partial f').
  assert (Hmm : ro (Forall2 (re (g_heap g) (g_heap g'))) mem mem').
  { unfold mem, mem'. destruct Hm as [|a b r r' H1 H2]; [exact Hp|]. destruct (f_index f =? f_sindex f); [constructor; assumption|exact Hp]. }
  clearbody mem mem'.
  apply sim_bind with (R := fun a b => rf (g_heap g) (g_heap g') (fst a) (fst b) /\ rf (g_heap g) (g_heap g') (snd a) (snd b) /\ stat f (snd a)).
  { destruct mem as [m|], mem' as [m'|]; cbn [ro] in Hmm; try contradiction.
    - pose proof (rev_cons_F2 _ _ _ Hmm) as Hr. destruct (rev m) as [|[i d] up], (rev m') as [|[i' d'] up']; try contradiction; [left; reflexivity|].
      destruct Hr as [[Hi Hd] Hup]. cbn [fst snd] in Hi, Hd. subst i'. apply sim_done. cbn [fst snd]. split; [apply rf_todo; [apply rf_section; assumption|exact Hd]|].
      split; [apply rf_partial; [apply rf_y; exact Hf|exact I]|]. eapply stat_trans; [apply stat_y|apply stat_consumed].
    - apply sim_done. cbn [fst snd]. split; [exact Hc0|]. split; [apply rf_y; exact Hf|apply stat_y]. }
  intros [c1 f2] [c1' f2'] (A1 & A2 & A3). cbn [fst snd] in *.
  eapply sim_bind; [apply (Hrec c1 c1' (f2 :: anc) (f2' :: anc') g g'); [exact A1|constructor; assumption|repeat split; assumption]|].
  intros [act [[c anc1] g1]] [act' [[c' anc1'] g1']] (B0 & B1 & B2 & B3 & B4 & B5 & B6 & B7). unfold same in B0. subst act'.
  destruct B2 as [|f3 f3' anc2 anc2' B2 B2']; [left; reflexivity|]. inversion B7 as [|? ? ? ? B8 B9]; subst.
  pose proof (rf_rest _ _ _ _ B1) as Hc. pose proof (rf_rest _ _ _ _ B2) as Hf3.
  assert (Ht : f_miny c' = f_miny c /\ f_cols c' = f_cols c /\ f_maxy c' = f_maxy c /\ f_y c' = f_y c) by (rewrite Hc; repeat split). destruct Ht as (T1 & T2 & T3 & T4). rewrite T1, T2, T3, T4.
  assert (Hq : f_y f3' = f_y f3 /\ f_starting f3' = f_starting f3 /\ f_lastbottom f3' = f_lastbottom f3) by (rewrite Hf3; repeat split). destruct Hq as (Q1 & Q2 & Q3). rewrite Q1, Q2, Q3.
  set (height := (f_miny c - (if 1 <? f_cols c then f_maxy c else f_y c))%Q).
  set (f4 := match act with Some PartialNext => f3 | _ => if qlt 0 height then with_y f3 (f_y f3 - height)%Q false (s_mb s) else with_y f3 (f_y f) (f_starting f3) (f_lastbottom f3) end).
  set (f4' := match act with Some PartialNext => f3' | _ => if qlt 0 height then with_y f3' (f_y f3 - height)%Q false (s_mb s) else with_y f3' (f_y f) (f_starting f3) (f_lastbottom f3) end).
  assert (H4 : rf (g_heap g1) (g_heap g1') f4 f4' /\ stat f3 f4).
  { unfold f4, f4'. destruct act as [[]|]; try (split; [exact B2|apply stat_refl]); (destruct (qlt 0 height); split; [apply rf_y; exact B2|apply stat_y|apply rf_y; exact B2|apply stat_y]). }
  destruct H4 as [H4 H5]. assert (H6 : stat f f4) by (eapply stat_trans; [exact A3|]; eapply stat_trans; [exact B8|exact H5]).
  destruct act as [a|]; apply sim_done; unfold full, rans.
  - split; [reflexivity|]. split; [exact H4|]. split; [exact B2'|]. split; [exact B3|]. split; [exact B4|]. split; [exact B5|]. split; [exact H6|exact B9].
  - split; [split; [exact I|split; reflexivity]|]. pose proof (rf_rest _ _ _ _ H4) as H7.
    assert (H8 : f_y f4' = f_y f4 /\ f_lastbottom f4' = f_lastbottom f4) by (rewrite H7; repeat split). destruct H8 as [H8 H9]. rewrite H8, H9.
    split; [apply rf_y; exact H4|]. split; [exact B2'|]. split; [exact B3|]. split; [exact B4|]. split; [exact B5|]. split; [eapply stat_trans; [exact H6|apply stat_y]|exact B9].
Qed.

Lemma rg_bump g g' id : rg g g' -> rg (bump g id) (bump g' id).
Proof. intros (G1 & G2 & G3). unfold rg. cbn. repeat (split; [assumption|]). intros Hs i. rewrite (G3 Hs i). reflexivity. Qed.
Lemma process_sim rec f f' anc anc' g g' el lst : simrec rec ->
  rf (g_heap g) (g_heap g') f f' -> Forall2 (rf (g_heap g) (g_heap g')) anc anc' -> rg g g' ->
  sim (full rans f anc g g') (process start crun save restore rec f anc g el lst) (process start crun save restore rec f' anc' g' el lst).
Proof.
  intros Hrec Hf Ha Hg. destruct el as [s e|s id iw ih|s id l|s cols gap l]; cbn [process].
  - eapply sim_bind; [apply leaf_sim; [exact Hf|exact Hg|reflexivity]|].
    intros [[r f1] g1] [[r' f1'] g1'] (A1 & A2 & A3 & A4 & A5 & A6). apply sim_done. unfold full, rans. split; [exact A1|]. split; [exact A2|]. split; [eapply rfs_ext; eassumption|].
    split; [exact A3|]. split; [exact A4|]. split; [exact A5|]. split; [exact A6|apply stats_refl].
  - pose proof (image_sim f f' g g' s (s_min s) (s_shrink s) iw ih true true Hf Hg) as H.
    destruct (process_image f g _ _ _ _ _ _ _) as [[ok f1] g1]. destruct (process_image f' g' _ _ _ _ _ _ _) as [[ok' f1'] g1'].
    destruct H as (-> & A2 & A3 & A4 & A5 & A5' & A5'' & A6). destruct ok.
    + apply sim_done. unfold full, rans. rewrite A4, A5. split; [repeat split|]. split; [exact A2|]. split; [exact Ha|]. split; [exact A3|]. split; [apply ext_refl|]. split; [apply ext_refl|]. split; [exact A6|apply stats_refl].
    + apply sim_bind with (R := rret (g_heap g) (g_heap g')); [apply image_ret_sim; intros Hs; apply Hg; exact Hs|]. intros r r' Hr. apply sim_done. unfold full, rans. cbn [bump g_heap]. rewrite A4, A5.
      split; [exact Hr|]. split; [exact A2|]. split; [exact Ha|]. split; [apply rg_bump; exact A3|]. split; [apply ext_refl|]. split; [apply ext_refl|]. split; [exact A6|apply stats_refl].
  - eapply sim_bind; [apply group_sim; [exact Hf|exact Hg|intros Hs; apply Hg; exact Hs]|].
    intros [[r f1] g1] [[r' f1'] g1'] (A1 & A2 & A3 & A4 & A5 & A6). apply sim_done.
    assert (Hd : exists b : bool, (match r_delayed r with Some _ => bump g1 id | None => g1 end) = (if b then bump g1 id else g1) /\ (match r_delayed r' with Some _ => bump g1' id | None => g1' end) = (if b then bump g1' id else g1')).
    { destruct A1 as [A1 _]. destruct (r_delayed r), (r_delayed r'); cbn [ro] in A1; try contradiction; [exists true|exists false]; auto. }
    destruct Hd as (b & -> & ->). assert (K1 : g_heap (if b then bump g1 id else g1) = g_heap g1) by (destruct b; reflexivity). assert (K2 : g_heap (if b then bump g1' id else g1') = g_heap g1') by (destruct b; reflexivity).
    unfold full, rans. rewrite K1, K2. split; [exact A1|]. split; [exact A2|]. split; [eapply rfs_ext; eassumption|].
    split; [destruct b; [apply rg_bump|]; exact A3|]. split; [exact A4|]. split; [exact A5|]. split; [exact A6|apply stats_refl].
  - apply child_sim; assumption.
Qed.
Lemma elements_sim rec : simrec rec -> forall fuel f f' anc anc' g g',
  rf (g_heap g) (g_heap g') f f' -> Forall2 (rf (g_heap g) (g_heap g')) anc anc' -> rg g g' ->
  sim (full same f anc g g') (add_elements start crun save restore rec fuel f anc g) (add_elements start crun save restore rec fuel f' anc' g').
Proof.
  intros Hrec. induction fuel as [|fuel IH]; intros f f' anc anc' g g' Hf Ha Hg; cbn [add_elements]; [left; exact I|].
  assert (F : f_elems f' = f_elems f /\ f_index f' = f_index f) by (rewrite (rf_rest _ _ _ _ Hf); split; reflexivity). destruct F as [F1 F2]. rewrite F1, F2.
  destruct (nth_error (f_elems f) (f_index f)) as [el|].
  - eapply sim_bind; [apply process_sim; [exact Hrec|exact Hf|exact Ha|exact Hg]|].
    intros [r [[f1 anc1] g1]] [r' [[f1' anc1'] g1']] (A1 & A2 & A3 & A4 & A5 & A6 & A7 & A8).
    destruct r as [a|r], r' as [a'|r']; cbn [rans] in A1; try contradiction.
    + subst a'. apply sim_done. unfold full, same. split; [reflexivity|]. repeat (split; [assumption|]). assumption.
    + assert (Hi : f_index f1' = f_index f1) by (rewrite (rf_rest _ _ _ _ A2); reflexivity). rewrite Hi. destruct A1 as (B1 & B2 & B3). rewrite B2.
      set (f2 := with_todo f1 (Datatypes.S (f_index f1)) (f_delayed f1 ++ match r_delayed r with Some d => [d] | None => [] end)).
      set (f2' := with_todo f1' (Datatypes.S (f_index f1)) (f_delayed f1' ++ match r_delayed r' with Some d => [d] | None => [] end)).
      assert (H2 : rf (g_heap g1) (g_heap g1') f2 f2').
      { apply rf_todo; [exact A2|]. apply Forall2_app; [apply (rf_delayed _ _ _ _ A2)|]. destruct (r_delayed r), (r_delayed r'); cbn [ro] in B1; try contradiction; repeat constructor; assumption. }
      assert (H3 : stat f f2) by (eapply stat_trans; [exact A7|apply stat_todo]).
      destruct (r_next r).
      * apply sim_done. unfold full, same. split; [reflexivity|]. split; [exact H2|]. split; [exact A3|]. split; [exact A4|]. split; [exact A5|]. split; [exact A6|]. split; [exact H3|exact A8].
      * eapply sim_weak; [apply IH; [exact H2|exact A3|exact A4]|].
        intros [b [[f3 anc3] g3]] [b' [[f3' anc3'] g3']] (C1 & C2 & C3 & C4 & C5 & C6 & C7 & C8). unfold full. split; [exact C1|]. split; [exact C2|]. split; [exact C3|]. split; [exact C4|].
        split; [eapply ext_trans; eassumption|]. split; [eapply ext_trans; eassumption|]. split; [eapply stat_trans; eassumption|eapply stats_trans; eassumption].
  - apply sim_done. unfold full, same. split; [reflexivity|]. split; [exact Hf|]. split; [exact Ha|]. split; [exact Hg|]. split; [apply ext_refl|]. split; [apply ext_refl|]. split; [apply stat_refl|apply stats_refl].
Qed.

Lemma reset_sim f f' (g g' : glob) : rf (g_heap g) (g_heap g') f f' -> rg g g' ->
  let '(go, f1, g1) := reset f g in let '(go', f1', g1') := reset f' g' in
  go' = go /\ rf (g_heap g) (g_heap g') f1 f1' /\ rg g1 g1' /\ g_heap g1 = g_heap g /\ g_heap g1' = g_heap g' /\ stat f f1.
Proof.
  intros Hf (G1 & G2 & G3). unfold reset. pose proof (rf_rest _ _ _ _ Hf) as He.
  assert (F : f_difflast f' = f_difflast f /\ f_diff f' = f_diff f /\ f_forward f' = f_forward f /\ f_miny f' = f_miny f /\ f_maxy f' = f_maxy f /\ f_minx f' = f_minx f /\ f_pindex f' = f_pindex f /\ f_sindex f' = f_sindex f)
    by (rewrite He; repeat split). destruct F as (F1 & F2 & F3 & F4 & F5 & F6 & F7 & F8). rewrite F1, F2, F3, F4, F5, F6, F7, F8. cbv zeta.
  match goal with |- context [if ?b then (false, f, g) else _] => destruct b end.
  - split; [reflexivity|]. split; [exact Hf|]. split; [repeat split; assumption|]. split; [reflexivity|]. split; [reflexivity|apply stat_refl].
  - match goal with |- context [match ?e with (_, _) => match _ with (_, _) => (true, _, with_parts g _) end end] => destruct e as [[maxy dl] df] end. split; [reflexivity|].
    split; [apply rf_todo; [apply rf_reset, rf_moved; exact Hf|apply (rf_sdelayed _ _ _ _ Hf)]|].
    split; [unfold rg; cbn [with_parts g_parts g_lines g_tries]; rewrite G1; repeat split; assumption|]. split; [reflexivity|]. split; [reflexivity|].
    eapply stat_trans; [|apply stat_todo]. eapply stat_trans; [apply stat_moved|apply stat_reset].
Qed.
Lemma if_resetting_sim f f' (g g' : glob) : rf (g_heap g) (g_heap g') f f' -> rg g g' ->
  let '(st, f1, g1) := if_resetting f g in let '(st', f1', g1') := if_resetting f' g' in
  st' = st /\ rf (g_heap g) (g_heap g') f1 f1' /\ rg g1 g1' /\ g_heap g1 = g_heap g /\ g_heap g1' = g_heap g' /\ stat f f1.
Proof.
  intros Hf Hg. unfold if_resetting. assert (F : f_will f' = f_will f /\ f_resetting f' = f_resetting f) by (rewrite (rf_rest _ _ _ _ Hf); split; reflexivity). destruct F as [-> ->].
  destruct (f_will f || f_resetting f).
  - pose proof (reset_sim f f' g g' Hf Hg) as H. destruct (reset f g) as [[go f1] g1], (reset f' g') as [[go' f1'] g1']. destruct H as (-> & H). split; [reflexivity|exact H].
  - split; [reflexivity|]. split; [exact Hf|]. split; [exact Hg|]. split; [reflexivity|]. split; [reflexivity|apply stat_refl].
Qed.
Definition rcm (h h' : list O) : option cmem -> option cmem -> Prop := ro (Forall2 (re h h')).
Lemma next_sim h h' n : forall l l' cm cm', Forall2 (rf h h') l l' -> rcm h h' cm cm' ->
  let '(r, st) := next_section n cm l in let '(r', st') := next_section n cm' l' in
  r' = r /\ Forall2 (rf h h') st st' /\ Forall2 stat l st.
Proof.
  induction l as [|f anc IH]; intros l' cm cm' Hl Hcm; inversion Hl as [|? f' ? anc' Hf Ha]; subst; cbn [next_section]; [repeat split; constructor|].
  assert (F : f_column f' = f_column f /\ f_cols f' = f_cols f /\ f_resetting f' = f_resetting f /\ f_will f' = f_will f /\ f_maxy f' = f_maxy f /\ f_difflast f' = f_difflast f /\ f_diff f' = f_diff f /\ f_index f' = f_index f)
    by (rewrite (rf_rest _ _ _ _ Hf); repeat split). destruct F as (F1 & F2 & F3 & F4 & F5 & F6 & F7 & F8). rewrite F1, F2, F3, F4, F5, F6, F7, F8.
  pose proof (rf_delayed _ _ _ _ Hf) as Hd.
  destruct (Nat.eqb_spec (Datatypes.S (f_column f)) (f_cols f)) as [Hc|Hc].
  - destruct (f_resetting f).
    { split; [reflexivity|]. split; constructor; [apply rf_reset; exact Hf|exact Ha|apply stat_reset|apply stats_refl]. }
    assert (Hb : Forall2 (re h h') (match cm with Some c => c | None => [] end) (match cm' with Some c => c | None => [] end)) by (destruct cm, cm'; cbn in Hcm; try contradiction; [exact Hcm|constructor]).
    assert (Hf1 : rf h h' (with_section f (f_index f) (f_delayed f) (match cm with Some c => c | None => [] end)) (with_section f' (f_index f) (f_delayed f') (match cm' with Some c => c | None => [] end))) by (apply rf_section; assumption).
    destruct Ha as [|p p' rest rest' Hp Hrest].
    { split; [reflexivity|]. split; constructor; [exact Hf1|constructor|apply stat_section|constructor]. }
    specialize (IH (p' :: rest') (Some ((match cm with Some c => c | None => [] end) ++ [(f_index f, f_delayed f)])) (Some ((match cm' with Some c => c | None => [] end) ++ [(f_index f, f_delayed f')])) (Forall2_cons _ _ Hp Hrest)).
    assert (Hcm2 : rcm h h' (Some ((match cm with Some c => c | None => [] end) ++ [(f_index f, f_delayed f)])) (Some ((match cm' with Some c => c | None => [] end) ++ [(f_index f, f_delayed f')]))).
    { cbn. apply Forall2_app; [exact Hb|]. constructor; [split; [reflexivity|exact Hd]|constructor]. }
    specialize (IH Hcm2). cbv zeta. destruct (next_section n _ (p :: rest)) as [r st]. destruct (next_section n _ (p' :: rest')) as [r' st']. destruct IH as (-> & I2 & I3).
    destruct r; (split; [first [reflexivity|destruct cm, cm'; cbn in Hcm; try contradiction; reflexivity]|]); split; constructor; try assumption; try apply stat_section; try (apply rf_moved; exact Hf1).
    eapply stat_trans; [apply stat_section|apply stat_moved].
  - assert (Hst : forall q, (f_cols f = 1 -> f_column f <> 0) -> stat f (with_partial (with_column f (Datatypes.S (f_column f))) q) /\ stat f (with_column f (Datatypes.S (f_column f)))).
    { intros q Hq. unfold stat, single. cbn. split; (repeat (split; [reflexivity|])); intros X Y; destruct (X Y) as [X1 X2]; destruct (Hq Y X1). }
    assert (Hq : f_cols f = 1 -> f_column f <> 0) by lia.
    assert (Hf1 : rf h h' (with_column f (Datatypes.S (f_column f))) (with_column f' (Datatypes.S (f_column f)))) by (apply rf_column; exact Hf).
    pose proof (rf_rest _ _ _ _ Hf1) as He1.
    destruct cm as [c|], cm' as [c'|]; cbn in Hcm; try contradiction.
    + destruct Hd as [|d d' r r' Hd1 Hd2].
      * split; [rewrite He1; reflexivity|]. split; constructor; [exact Hf1|exact Ha|apply (Hst None); exact Hq|apply stats_refl].
      * split; [reflexivity|]. split; constructor; [apply rf_partial; [exact Hf1|exact Hcm]|exact Ha|apply (Hst (Some c)); exact Hq|apply stats_refl].
    + split; [reflexivity|]. split; constructor; [exact Hf1|exact Ha|apply (Hst None); exact Hq|apply stats_refl].
Qed.
Lemma after_sim a f f' anc anc' g g' : rf (g_heap g) (g_heap g') f f' -> Forall2 (rf (g_heap g) (g_heap g')) anc anc' -> rg g g' ->
  sim (full same f anc g g') (after a f anc g) (after a f' anc' g').
Proof.
  intros Hf Ha Hg. assert (Hid : forall (x : step), sim (full same f anc g g') (Done (x, (f, anc, g))) (Done (x, (f', anc', g')))).
  { intros x. apply sim_done. unfold full, same. split; [reflexivity|]. split; [exact Hf|]. split; [exact Ha|]. split; [exact Hg|]. split; [apply ext_refl|]. split; [apply ext_refl|]. split; [apply stat_refl|apply stats_refl]. }
  destruct a as [[]| |]; cbn [after]; try apply Hid.
  - pose proof (if_resetting_sim f f' g g' Hf Hg) as H. destruct (if_resetting f g) as [[st f1] g1], (if_resetting f' g') as [[st' f1'] g1'].
    destruct H as (-> & A1 & A2 & A3 & A4 & A5). apply sim_done. unfold full, same. rewrite A3, A4. split; [reflexivity|]. split; [exact A1|]. split; [exact Ha|]. split; [exact A2|]. split; [apply ext_refl|]. split; [apply ext_refl|]. split; [exact A5|apply stats_refl].
  - pose proof (rf_part _ _ _ _ Hf) as Hp. destruct (f_partial f), (f_partial f'); cbn [ro] in Hp; try contradiction; apply Hid.
  - pose proof Hg as (G1 & _). rewrite G1. pose proof (next_sim (g_heap g) (g_heap g') (length (g_parts g)) (f :: anc) (f' :: anc') None None (Forall2_cons _ _ Hf Ha) I) as H.
    destruct (next_section _ None (f :: anc)) as [r st]. destruct (next_section _ None (f' :: anc')) as [r' st']. destruct H as (-> & A1 & A2).
    destruct A1 as [|f1 f1' anc1 anc1' A1 A1']; [left; reflexivity|]. inversion A2 as [|? ? ? ? A3 A4]; subst.
    assert (Hid1 : forall (x : step), sim (full same f anc g g') (Done (x, (f1, anc1, g))) (Done (x, (f1', anc1', g')))).
    { intros x. apply sim_done. unfold full, same. split; [reflexivity|]. split; [exact A1|]. split; [exact A1'|]. split; [exact Hg|]. split; [apply ext_refl|]. split; [apply ext_refl|]. split; [exact A3|exact A4]. }
    destruct r; try apply Hid1.
    pose proof (if_resetting_sim f1 f1' g g' A1 Hg) as H. destruct (if_resetting f1 g) as [[st f2] g1], (if_resetting f1' g') as [[st' f2'] g1'].
    destruct H as (-> & B1 & B2 & B3 & B4 & B5). apply sim_done. unfold full, same. rewrite B3, B4. split; [reflexivity|]. split; [exact B1|]. split; [exact A1'|]. split; [exact B2|]. split; [apply ext_refl|]. split; [apply ext_refl|]. split; [eapply stat_trans; eassumption|exact A4].
Qed.
Lemma last_child_sim h h' : forall anc anc' f f', rf h h' f f' -> Forall2 (rf h h') anc anc' -> last_child f' anc' = last_child f anc.
Proof.
  induction anc as [|p anc IH]; intros anc' f f' Hf Ha; inversion Ha as [|? p' ? rest' Hp Hr]; subst; cbn [last_child]; [reflexivity|].
  rewrite (IH rest' p p' Hp Hr). assert (F : f_last f' = f_last f) by (rewrite (rf_rest _ _ _ _ Hf); reflexivity). assert (G : f_resetting p' = f_resetting p) by (rewrite (rf_rest _ _ _ _ Hp); reflexivity). rewrite F, G. reflexivity.
Qed.
Lemma start_sim h h' : forall l l', Forall2 (rf h h') l l' -> Forall2 (rf h h') (start_resetting l) (start_resetting l') /\ Forall2 stat l (start_resetting l).
Proof.
  induction l as [|f l IH]; intros l' Hl; inversion Hl as [|? f' ? r' Hf Hr]; subst; cbn [start_resetting]; [split; constructor|].
  assert (F : f_last f' = f_last f /\ f_resetting f' = f_resetting f /\ f_maxy f' = f_maxy f /\ f_difflast f' = f_difflast f /\ f_diff f' = f_diff f /\ f_forward f' = f_forward f) by (rewrite (rf_rest _ _ _ _ Hf); repeat split).
  destruct F as (F1 & F2 & F3 & F4 & F5 & F6). rewrite F1, F2, F3, F4, F5, F6.
  destruct Hr as [|p p' rest rest' Hp Hrest].
  - split; constructor; [apply rf_reset; exact Hf|constructor|apply stat_reset|constructor].
  - assert (G : f_cols p' = f_cols p) by (rewrite (rf_rest _ _ _ _ Hp); reflexivity). rewrite G. destruct (f_last f && (1 <? f_cols p)).
    + destruct (IH _ (Forall2_cons _ _ Hp Hrest)) as [I1 I2]. split; constructor; [exact Hf|exact I1|apply stat_refl|exact I2].
    + split; constructor; [apply rf_reset; exact Hf|constructor; assumption|apply stat_reset|apply stats_refl].
Qed.
Lemma full_trans {A} (Ra : list O -> list O -> A -> A -> Prop) f anc g g' f1 anc1 g1 g1' x y :
  ext (g_heap g) (g_heap g1) -> ext (g_heap g') (g_heap g1') -> stat f f1 -> Forall2 stat anc anc1 ->
  full Ra f1 anc1 g1 g1' x y -> full Ra f anc g g' x y.
Proof.
  intros H1 H2 H3 H4. destruct x as [a [[f2 anc2] g2]], y as [a' [[f2' anc2'] g2']]. intros (C1 & C2 & C3 & C4 & C5 & C6 & C7 & C8). unfold full. split; [exact C1|]. split; [exact C2|]. split; [exact C3|]. split; [exact C4|].
  split; [eapply ext_trans; eassumption|]. split; [eapply ext_trans; eassumption|]. split; [eapply stat_trans; eassumption|eapply stats_trans; eassumption].
Qed.
Lemma loop_sim rec : simrec rec -> forall fuel, simrec (loop start crun save restore rec fuel).
Proof.
  intros Hrec. induction fuel as [|fuel IH]; intros f f' anc anc' g g' Hf Ha Hg; cbn [loop]; [left; exact I|].
  eapply sim_bind; [apply add_delayed_sim; [exact Hf|exact Hg]|].
  intros [[a1 f1] g1] [[a1' f1'] g1'] (-> & A2 & A3 & A4 & A5 & A6).
  assert (Ha1 : Forall2 (rf (g_heap g1) (g_heap g1')) anc anc') by (eapply rfs_ext; eassumption).
  eapply sim_bind; [apply after_sim; [exact A2|exact Ha1|exact A3]|].
  intros [s1 [[f2 anc2] g2]] [s1' [[f2' anc2'] g2']] (B1 & B2 & B3 & B4 & B5 & B6 & B7 & B8). unfold same in B1. subst s1'.
  assert (T1 : ext (g_heap g) (g_heap g2)) by (eapply ext_trans; eassumption). assert (T2 : ext (g_heap g') (g_heap g2')) by (eapply ext_trans; eassumption). assert (T3 : stat f f2) by (eapply stat_trans; eassumption).
  assert (Hret : forall X (x : X) f5 f5' anc5 anc5' (g5 g5' : glob), rf (g_heap g5) (g_heap g5') f5 f5' -> Forall2 (rf (g_heap g5) (g_heap g5')) anc5 anc5' -> rg g5 g5' -> ext (g_heap g) (g_heap g5) -> ext (g_heap g') (g_heap g5') ->
     stat f f5 -> Forall2 stat anc anc5 -> sim (full same f anc g g') (Done (x, (f5, anc5, g5))) (Done (x, (f5', anc5', g5')))).
  { intros X x f5 f5' anc5 anc5' g5 g5' H1 H2 H3 H4 H5 H6 H7. apply sim_done. unfold full, same. split; [reflexivity|]. split; [exact H1|]. split; [exact H2|]. split; [exact H3|]. split; [exact H4|]. split; [exact H5|]. split; [exact H6|exact H7]. }
  assert (Hloop : forall f5 f5' anc5 anc5' (g5 g5' : glob), rf (g_heap g5) (g_heap g5') f5 f5' -> Forall2 (rf (g_heap g5) (g_heap g5')) anc5 anc5' -> rg g5 g5' -> ext (g_heap g) (g_heap g5) -> ext (g_heap g') (g_heap g5') ->
     stat f f5 -> Forall2 stat anc anc5 -> sim (full same f anc g g') (loop start crun save restore rec fuel f5 anc5 g5) (loop start crun save restore rec fuel f5' anc5' g5')).
  { intros f5 f5' anc5 anc5' g5 g5' H1 H2 H3 H4 H5 H6 H7. eapply sim_weak; [apply IH; [exact H1|exact H2|exact H3]|]. intros x y. apply full_trans; assumption. }
  destruct s1; [apply Hret; assumption|apply Hloop; assumption|].
  eapply sim_bind; [apply (elements_sim rec Hrec fuel); [exact B2|exact B3|exact B4]|].
  intros [a2 [[f3 anc3] g3]] [a2' [[f3' anc3'] g3']] (C1 & C2 & C3 & C4 & C5 & C6 & C7 & C8). unfold same in C1. subst a2'.
  eapply sim_bind; [apply after_sim; [exact C2|exact C3|exact C4]|].
  intros [s2 [[f4 anc4] g4]] [s2' [[f4' anc4'] g4']] (D1 & D2 & D3 & D4 & D5 & D6 & D7 & D8). unfold same in D1. subst s2'.
  assert (U1 : ext (g_heap g) (g_heap g4)) by (eapply ext_trans; [exact T1|]; eapply ext_trans; eassumption). assert (U2 : ext (g_heap g') (g_heap g4')) by (eapply ext_trans; [exact T2|]; eapply ext_trans; eassumption).
  assert (U3 : stat f f4) by (eapply stat_trans; [exact T3|]; eapply stat_trans; eassumption). assert (U4 : Forall2 stat anc anc4) by (eapply stats_trans; [exact B8|]; eapply stats_trans; eassumption).
  destruct s2; [apply Hret; assumption|apply Hloop; assumption|].
  pose proof (rf_delayed _ _ _ _ D2) as Hd. destruct (f_delayed f4) as [|d dl], (f_delayed f4') as [|d' dl']; try (inversion Hd; fail); [|apply Hloop; assumption].
  assert (F : f_resetting f4' = f_resetting f4 /\ f_cols f4' = f_cols f4 /\ f_will f4' = f_will f4 /\ f_maxy f4' = f_maxy f4 /\ f_difflast f4' = f_difflast f4 /\ f_diff f4' = f_diff f4) by (rewrite (rf_rest _ _ _ _ D2); repeat split).
  destruct F as (F1 & F2 & F3 & F4 & F5 & F6). rewrite F1, F2, F3, F4, F5, F6.
  destruct (negb (f_resetting f4) && (1 <? f_cols f4)).
  - rewrite (last_child_sim _ _ _ _ _ _ D2 D3). destruct (last_child f4 anc4); [apply Hret; assumption|].
    destruct (start_sim _ _ _ _ (Forall2_cons _ _ D2 D3)) as [S1 S2]. destruct S1 as [|f5 f5' anc5 anc5' S1 S1']; [left; reflexivity|]. inversion S2 as [|? ? ? ? S3 S4]; subst.
    assert (G : f_will f5' = f_will f5) by (rewrite (rf_rest _ _ _ _ S1); reflexivity). rewrite G.
    destruct (f_will f5).
    + pose proof (reset_sim f5 f5' g4 g4' S1 D4) as H. destruct (reset f5 g4) as [[go f6] g6], (reset f5' g4') as [[go' f6'] g6']. destruct H as (_ & H1 & H2 & H3 & H4 & H5).
      apply Hloop; rewrite ?H3, ?H4; try assumption; [|eapply stats_trans; eassumption]. eapply stat_trans; [exact U3|]. eapply stat_trans; eassumption.
    + apply Hret; try assumption; [eapply stat_trans; eassumption|eapply stats_trans; eassumption].
  - destruct (f_resetting f4) eqn:Er; [|apply Hret; assumption].
    assert (S1 : rf (g_heap g4) (g_heap g4') (with_reset f4 (f_will f4) true (f_maxy f4) (f_difflast f4) (f_diff f4) false) (with_reset f4' (f_will f4) true (f_maxy f4) (f_difflast f4) (f_diff f4) false)) by (apply rf_reset; exact D2).
    pose proof (reset_sim _ _ g4 g4' S1 D4) as H. cbv zeta. destruct (reset _ g4) as [[go f6] g6], (reset _ g4') as [[go' f6'] g6']. destruct H as (-> & H1 & H2 & H3 & H4 & H5).
    assert (U5 : stat f f6) by (eapply stat_trans; [exact U3|]; eapply stat_trans; [apply stat_reset|exact H5]).
    destruct go; [apply Hloop|apply Hret]; rewrite ?H3, ?H4; assumption.
Qed.
Lemma run_part_sim : forall fuel, simrec (run_part start crun save restore fuel).
Proof.
  induction fuel as [|fuel IH]; [intros f f' anc anc' g g' _ _ _; left; exact I|]. cbn [run_part]. intros f f' anc anc' g g' H1 H2 H3. apply (loop_sim _ IH fuel); assumption.
Qed.
End State.
