(** Proofs about the pages of a document (Document.v). *)
From Coq Require Import String QArith ZArith Lia List Permutation Lqa.
From Verif Require Import Py PyStr Parser StreamProofs Ranges Roman Margins PageGeom Document.
Import ListNotations.
Open Scope list_scope.

(** ** Specification *)

(** A rule of [per_page], its pages given as items of a range text (Ranges.v). *)
Record drule := mkDRule { d_items : list item; d_style : option pstyle; d_rs : option (list str * list str) }.
Definition written (r : drule) : urule := mkURule (render (d_items r)) (d_style r) (d_rs r).
Definition valid_rule (r : drule) : Prop := d_items r <> [] /\ forall it, In it (d_items r) -> valid_item it.
(** The rule is about page [n] (pages are counted from 0). *)
Definition applies (r : drule) (n : Z) : Prop := exists it, In it (d_items r) /\ in_item it n.
Definition excludes (r : drule) : list str := match d_rs r with Some (e, _) => e | None => [] end.
Definition includes (r : drule) : list str := match d_rs r with Some (_, i) => i | None => [] end.
Definition rule_has {A} (g : pstyle -> option A) (r : drule) : option A :=
  match d_style r with Some y => g y | None => None end.

(** The value of a page key on page [n]: that of the last rule about [n] that
    has the key, else the one of the section. *)
Definition decided {A} (g : pstyle -> option A) (rules : list drule) (n : Z) (own : option A) (v : A) : Prop :=
  (exists a r b, rules = a ++ r :: b /\ applies r n /\ rule_has g r = Some v /\
     forall r', In r' b -> applies r' n -> rule_has g r' = None) \/
  (own = Some v /\ forall r, In r rules -> applies r n -> rule_has g r = None).

(** The running section [x] is on page [n]: the section has it or a rule about
    [n] includes it, and no (later) rule about [n] excludes it. *)
Definition shown (x : str) (rules : list drule) (n : Z) (names : list str) : Prop :=
  (exists a r b, rules = a ++ r :: b /\ applies r n /\ In x (includes r) /\
     forall r', In r' b -> applies r' n -> ~ In x (excludes r')) \/
  (In x names /\ forall r, In r rules -> applies r n -> ~ In x (excludes r)).

(** The documented values of the keys of a running section on page [p]. *)
Definition width_doc (p : page) (v : option pos) (q : Q) : Prop :=
  match v with
  | None | Some PosNone => (q == p_width p - p_ml p - p_mr p)%Q
  | Some (PosNum n) => q = n
  | Some (PosName s) => (s = lit "left" /\ q = p_ml p) \/ (s = lit "right" /\ q = p_mr p) \/ (s = lit "full" /\ q = p_width p)
  end.
Definition height_doc (p : page) (v : option pos) (q : Q) : Prop :=
  match v with
  | None | Some PosNone => (q == p_height p - p_mt p - p_mb p)%Q
  | Some (PosNum n) => q = n
  | Some (PosName s) => (s = lit "top" /\ q = p_mt p) \/ (s = lit "bottom" /\ q = p_mb p) \/ (s = lit "full" /\ q = p_height p)
  end.
Definition x_doc (p : page) (v : option pos) (q : Q) : Prop :=
  match v with
  | None | Some PosNone => (q == 0)%Q
  | Some (PosNum n) => q = n
  | Some (PosName s) => (s = lit "left" /\ q = p_ml p) \/ (s = lit "right" /\ (q == p_width p - p_mr p)%Q)
  end.
Definition y_doc (p : page) (v : option pos) (q : Q) : Prop :=
  match v with
  | None | Some PosNone => (q == 0)%Q
  | Some (PosNum n) => q = n
  | Some (PosName s) => (s = lit "top" /\ q = p_mt p) \/ (s = lit "bottom" /\ (q == p_height p - p_mb p)%Q)
  end.
Definition placed_as {B} (p : page) (r : rsec B) (a : rsargs) : Prop :=
  (rs_w r <> Some PosNone -> exists q, a_w a = Some q /\ width_doc p (rs_w r) q) /\
  (rs_h r <> Some PosNone -> exists q, a_h a = Some q /\ height_doc p (rs_h r) q) /\
  (rs_x r <> Some PosNone -> exists q, a_x a = Some q /\ x_doc p (rs_x r) q) /\
  (rs_y r <> Some PosNone -> exists q, a_y a = Some q /\ y_doc p (rs_y r) q).

(** ** Rules *)
Definition kept (r : drule) : rule := mkRule (map item_range (d_items r)) (d_style r) (d_rs r).

Lemma read_rules rules : Forall valid_rule rules -> mapM read_rule (map written rules) = Ok (map kept rules).
Proof.
  intros H. induction H as [|r rules [Hn Hv] _ IH]; [reflexivity|].
  cbn [map mapM]. unfold read_rule at 1, written at 1. cbn [u_pages u_style u_rs].
  rewrite parse_render by assumption. cbn [bind]. rewrite IH. reflexivity.
Qed.

Lemma kept_mem r n : valid_rule r -> mr_mem (l_pages (kept r)) n = true <-> applies r n.
Proof.
  intros [_ Hv]. unfold mr_mem, applies. cbn [kept l_pages]. rewrite existsb_exists. split.
  - intros (x & Hx & Hm). apply in_map_iff in Hx as (it & <- & Hin).
    exists it. split; [exact Hin|]. apply item_range_mem; auto.
  - intros (it & Hin & Hm). exists (item_range it). split; [now apply in_map|]. apply item_range_mem; auto.
Qed.

Definition good {A} (g : pstyle -> option A) : Prop := forall a b, g (overlay a b) = over (g a) (g b).

Lemma plan_value {A} (g : pstyle -> option A) n rules : good g -> Forall valid_rule rules -> forall st v,
  g (fst (fold_left (apply_rule n) (map kept rules) st)) = Some v <-> decided g rules n (g (fst st)) v.
Proof.
  intros Hg H. induction H as [|r rules Hr _ IH]; intros st v; cbn [map fold_left].
  - unfold decided. split.
    + intros H. right. split; [exact H|]. intros r [].
    + intros [(a & r & b & H & _)|[H _]]; [destruct a; discriminate|exact H].
  - rewrite IH. unfold apply_rule. destruct (mr_mem (l_pages (kept r)) n) eqn:Hm.
    + assert (Ha : applies r n) by now apply kept_mem.
      cbn [fst]. cbn [kept l_style].
      assert (Hstep : g (match d_style r with Some y => overlay (fst st) y | None => fst st end)
                = over (g (fst st)) (rule_has g r)).
      { unfold rule_has. destruct (d_style r); [apply Hg|reflexivity]. }
      rewrite Hstep. unfold decided. split.
      * intros [(a & r0 & b & -> & H1 & H2 & H3)|[H1 H2]].
        -- left. exists (r :: a), r0, b. auto.
        -- destruct (rule_has g r) as [u|] eqn:Er; cbn [over] in H1.
           ++ left. exists [], r, rules. rewrite Er. auto.
           ++ right. split; [exact H1|]. intros r' [<-|Hin]; auto.
      * intros [(a & r0 & b & He & H1 & H2 & H3)|[H1 H2]].
        -- destruct a as [|a0 a]; cbn in He; injection He as -> ->.
           ++ right. rewrite H2. cbn [over]. auto.
           ++ left. exists a, r0, b. auto.
        -- right. rewrite (H2 r) by (auto; now left). cbn [over]. split; [exact H1|].
           intros r' Hin. apply H2. now right.
    + assert (Ha : ~ applies r n) by (intros Ha; apply kept_mem in Ha; [congruence|exact Hr]).
      unfold decided. split.
      * intros [(a & r0 & b & -> & H1 & H2 & H3)|[H1 H2]].
        -- left. exists (r :: a), r0, b. auto.
        -- right. split; [exact H1|]. intros r' [<-|Hin]; [tauto|auto].
      * intros [(a & r0 & b & He & H1 & H2 & H3)|[H1 H2]].
        -- destruct a as [|a0 a]; cbn in He; injection He as -> ->; [tauto|].
           left. exists a, r0, b. auto.
        -- right. split; [exact H1|]. intros r' Hin. apply H2. now right.
Qed.

Lemma plan_none {A} (g : pstyle -> option A) n rules : good g -> forall st, g (fst st) = None ->
  (forall r, In r rules -> rule_has g r = None) -> g (fst (fold_left (apply_rule n) (map kept rules) st)) = None.
Proof.
  intros Hg. induction rules as [|r rules IH]; intros st Hst Hn; [exact Hst|].
  cbn [map fold_left]. apply IH; [|intros x Hx; apply Hn; now right].
  unfold apply_rule. destruct (mr_mem _ _); [|exact Hst]. cbn [fst]. cbn [kept l_style].
  specialize (Hn r (or_introl eq_refl)). unfold rule_has in Hn.
  destruct (d_style r); [|exact Hst]. rewrite Hg, Hst, Hn. reflexivity.
Qed.

Lemma plan_some {A} (g : pstyle -> option A) n rules : good g -> forall st, g (fst st) <> None ->
  g (fst (fold_left (apply_rule n) (map kept rules) st)) <> None.
Proof.
  intros Hg. induction rules as [|r rules IH]; intros st Hst; [exact Hst|].
  cbn [map fold_left]. apply IH. unfold apply_rule. destruct (mr_mem _ _); [|exact Hst].
  cbn [fst]. cbn [kept l_style]. destruct (d_style r); [|exact Hst]. rewrite Hg.
  destruct (g p); cbn [over]; [discriminate|exact Hst].
Qed.

(** ** Sets of names *)
Lemma sadd_in l x y : In y (sadd l x) <-> In y l \/ y = x.
Proof.
  unfold sadd. destruct (existsb (str_eqb x) l) eqn:E.
  - apply existsb_exists in E as (z & Hz & Hx). apply str_eqb_eq in Hx as <-.
    split; [auto|]. intros [H| ->]; auto.
  - rewrite in_app_iff. cbn. intuition.
Qed.
Lemma sadd_nodup l x : NoDup l -> NoDup (sadd l x).
Proof.
  intros H. unfold sadd. destruct (existsb (str_eqb x) l) eqn:E; [exact H|].
  eapply Permutation_NoDup; [apply Permutation_cons_append|]. constructor; [|exact H].
  intros Hy. assert (existsb (str_eqb x) l = true); [|congruence].
  apply existsb_exists. exists x. split; [exact Hy|apply str_eqb_refl].
Qed.
Lemma sunion_in m : forall l x, In x (sunion l m) <-> In x l \/ In x m.
Proof.
  unfold sunion. induction m as [|y m IH]; intros l x; cbn [fold_left In]; [tauto|].
  rewrite IH, sadd_in. intuition.
Qed.
Lemma sunion_nodup m : forall l, NoDup l -> NoDup (sunion l m).
Proof.
  unfold sunion. induction m as [|y m IH]; intros l H; cbn [fold_left]; [exact H|].
  apply IH, sadd_nodup, H.
Qed.
Lemma sset_in l x : In x (sset l) <-> In x l.
Proof. unfold sset. rewrite sunion_in. cbn. tauto. Qed.
Lemma sset_nodup l : NoDup (sset l).
Proof. apply sunion_nodup. constructor. Qed.
Lemma sminus_in l m x : In x (sminus l m) <-> In x l /\ ~ In x m.
Proof.
  unfold sminus. rewrite filter_In, Bool.negb_true_iff. split.
  - intros [H1 H2]. split; [exact H1|]. intros H3.
    assert (existsb (str_eqb x) m = true); [|congruence].
    apply existsb_exists. exists x. split; [exact H3|apply str_eqb_refl].
  - intros [H1 H2]. split; [exact H1|]. apply Bool.not_true_iff_false. intros H3.
    apply existsb_exists in H3 as (z & Hz & Hx). apply str_eqb_eq in Hx as <-. auto.
Qed.
Lemma sminus_nodup l m : NoDup l -> NoDup (sminus l m).
Proof. apply NoDup_filter. Qed.

Lemma plan_nodup n rules : forall st, NoDup (snd st) -> NoDup (snd (fold_left (apply_rule n) rules st)).
Proof.
  induction rules as [|r rules IH]; intros st H; cbn [fold_left]; [exact H|]. apply IH.
  unfold apply_rule. destruct (mr_mem _ _); [|exact H]. cbn [snd].
  destruct (l_rs r) as [[e i]|]; [|exact H]. apply sunion_nodup, sminus_nodup, H.
Qed.

Lemma plan_shown x n rules : Forall valid_rule rules -> forall st,
  In x (snd (fold_left (apply_rule n) (map kept rules) st)) <-> shown x rules n (snd st).
Proof.
  intros H. induction H as [|r rules Hr _ IH]; intros st; cbn [map fold_left].
  - unfold shown. split.
    + intros H. right. split; [exact H|]. intros r [].
    + intros [(a & r & b & H & _)|[H _]]; [destruct a; discriminate|exact H].
  - rewrite IH. unfold apply_rule. destruct (mr_mem (l_pages (kept r)) n) eqn:Hm.
    + assert (Ha : applies r n) by now apply kept_mem.
      cbn [snd]. cbn [kept l_rs].
      assert (Hstep : In x (match d_rs r with
                Some (exc, inc) => sunion (sminus (snd st) (sset exc)) (sset inc) | None => snd st end)
                <-> In x (includes r) \/ (In x (snd st) /\ ~ In x (excludes r))).
      { unfold includes, excludes. destruct (d_rs r) as [[e i]|]; [|cbn; tauto].
        rewrite sunion_in, sminus_in, !sset_in. tauto. }
      unfold shown. rewrite Hstep. split.
      * intros [(a & r0 & b & -> & H1 & H2 & H3)|[[H1|[H1 H1']] H2]].
        -- left. exists (r :: a), r0, b. auto.
        -- left. exists [], r, rules. auto.
        -- right. split; [exact H1|]. intros r' [<-|Hin]; auto.
      * intros [(a & r0 & b & He & H1 & H2 & H3)|[H1 H2]].
        -- destruct a as [|a0 a]; cbn in He; injection He as -> ->.
           ++ right. auto.
           ++ left. exists a, r0, b. auto.
        -- right. split; [right; split; [exact H1|]|].
           ++ apply H2; [now left|exact Ha].
           ++ intros r' Hin. apply H2. now right.
    + assert (Ha : ~ applies r n) by (intros Ha; apply kept_mem in Ha; [congruence|exact Hr]).
      unfold shown. split.
      * intros [(a & r0 & b & -> & H1 & H2 & H3)|[H1 H2]].
        -- left. exists (r :: a), r0, b. auto.
        -- right. split; [exact H1|]. intros r' [<-|Hin]; [tauto|auto].
      * intros [(a & r0 & b & He & H1 & H2 & H3)|[H1 H2]].
        -- destruct a as [|a0 a]; cbn in He; injection He as -> ->; [tauto|].
           left. exists a, r0, b. auto.
        -- right. split; [exact H1|]. intros r' Hin. apply H2. now right.
Qed.

(** ** A new page *)
Lemma need_ok k d v : need k d = Ok v -> dget k d = Some v.
Proof. unfold need. destruct (dget k d); [intros [= ->]; reflexivity|discriminate]. Qed.

Lemma add_page_default float_of s s' : add_page float_of s None None None = (Ok tt, s') ->
  exists p, ps_pages s' = ps_pages s ++ [p] /\
    ps_w s' = ps_w s /\ ps_h s' = ps_h s /\ ps_rot s' = ps_rot s /\ ps_margin s' = ps_margin s /\
    (p_width p, p_height p) = (if ps_rot s then (ps_h s, ps_w s) else (ps_w s, ps_h s)) /\
    p_mt p = margin_or_0 (lit "top") (ps_margin s) /\ p_mb p = margin_or_0 (lit "bottom") (ps_margin s) /\
    p_ml p = margin_or_0 (lit "left") (ps_margin s) /\ p_mr p = margin_or_0 (lit "right") (ps_margin s).
Proof.
  unfold add_page. cbn [bind]. unfold new_page.
  destruct (forallb _ _); [|discriminate]. cbn [bind].
  match goal with |- context [draw_sections _ ?x] => set (p0 := x) end.
  destruct (page_number _ _); [|discriminate].
  destruct (draw_sections (ps_sections s) p0) as [p'|] eqn:Ed; [|discriminate].
  intros [= <-]. apply draw_sections_geom in Ed. exists (go_to_beginning p').
  rewrite Ed. cbn. repeat (split; [reflexivity|]). split; [|repeat split].
  destruct (ps_rot s); reflexivity.
Qed.

Lemma resolve_ok names dflt v o : resolve names dflt v = Ok o ->
  match v with
  | None => o = Some dflt
  | Some PosNone => o = None
  | Some (PosNum q) => o = Some q
  | Some (PosName s) => exists q, o = Some q /\ names s = Some (Ok q)
  end.
Proof.
  unfold resolve. destruct v as [[q|s|]|]; try (intros [= <-]; reflexivity).
  destruct (names s) as [[q|e]|] eqn:E; cbn [bind]; try discriminate. intros [= <-]. eauto.
Qed.

Lemma is_name_one s k : is_name s [k] = true -> s = lit k.
Proof. unfold is_name. cbn [existsb]. rewrite Bool.orb_false_r. apply str_eqb_eq. Qed.
Lemma is_name_two s k k' : is_name s [k; k'] = true -> s = lit k \/ s = lit k'.
Proof.
  unfold is_name. cbn [existsb]. rewrite Bool.orb_false_r. intros H.
  apply Bool.orb_true_iff in H as [H|H]; apply str_eqb_eq in H; auto.
Qed.

Lemma running_args_spec {B} pw ph m (r : rsec B) a p :
  running_args pw ph m r = Ok a ->
  p_width p = pw -> p_height p = ph ->
  p_mt p = margin_or_0 (lit "top") m -> p_mb p = margin_or_0 (lit "bottom") m ->
  p_ml p = margin_or_0 (lit "left") m -> p_mr p = margin_or_0 (lit "right") m ->
  placed_as p r a.
Proof.
  intros H <- <- Ht Hb Hl Hr. unfold running_args in H.
  destruct (need (lit "right") m) as [vr|] eqn:Er; [|discriminate].
  destruct (need (lit "left") m) as [vl|] eqn:El; [|discriminate].
  destruct (need (lit "top") m) as [vt|] eqn:Et; [|discriminate].
  destruct (need (lit "bottom") m) as [vb|] eqn:Eb; [|discriminate].
  cbn [bind] in H.
  pose proof (need_ok _ _ _ Er) as Gr. pose proof (need_ok _ _ _ El) as Gl.
  pose proof (need_ok _ _ _ Et) as Gt. pose proof (need_ok _ _ _ Eb) as Gb.
  unfold margin_or_0 in *. rewrite Gr in Hr. rewrite Gl in Hl. rewrite Gt in Ht. rewrite Gb in Hb.
  match type of H with bind ?x _ = _ => destruct x as [w|] eqn:Ew; [|discriminate] end. cbn [bind] in H.
  match type of H with bind ?x _ = _ => destruct x as [h|] eqn:Eh; [|discriminate] end. cbn [bind] in H.
  match type of H with bind ?x _ = _ => destruct x as [x'|] eqn:Ex; [|discriminate] end. cbn [bind] in H.
  match type of H with bind ?x _ = _ => destruct x as [y'|] eqn:Ey; [|discriminate] end. cbn [bind] in H.
  injection H as <-. unfold placed_as. cbn [a_w a_h a_x a_y].
  split; [|split; [|split]].
  - apply resolve_ok in Ew. intros Hn. destruct (rs_w r) as [[q|s|]|]; cbn [width_doc].
    + eauto.
    + destruct Ew as (q & -> & Hq). exists q. split; [reflexivity|].
      destruct (is_name s ["left"; "right"]%string) eqn:E1.
      * apply is_name_two in E1 as [->| ->].
        -- rewrite El in Hq. injection Hq as <-. auto.
        -- rewrite Er in Hq. injection Hq as <-. auto.
      * destruct (is_name s ["full"]%string) eqn:E2; [|discriminate].
        apply is_name_one in E2 as ->. injection Hq as <-. auto.
    + congruence.
    + eexists. split; [exact Ew|]. rewrite Hl, Hr. lra.
  - apply resolve_ok in Eh. intros Hn. destruct (rs_h r) as [[q|s|]|]; cbn [height_doc].
    + eauto.
    + destruct Eh as (q & -> & Hq). exists q. split; [reflexivity|].
      destruct (is_name s ["top"; "bottom"]%string) eqn:E1.
      * apply is_name_two in E1 as [->| ->].
        -- rewrite Et in Hq. injection Hq as <-. auto.
        -- rewrite Eb in Hq. injection Hq as <-. auto.
      * destruct (is_name s ["full"]%string) eqn:E2; [|discriminate].
        apply is_name_one in E2 as ->. injection Hq as <-. auto.
    + congruence.
    + eexists. split; [exact Eh|]. rewrite Ht, Hb. lra.
  - apply resolve_ok in Ex. intros Hn. destruct (rs_x r) as [[q|s|]|]; cbn [x_doc].
    + eauto.
    + destruct Ex as (q & -> & Hq). exists q. split; [reflexivity|].
      destruct (is_name s ["left"]%string) eqn:E1.
      * apply is_name_one in E1 as ->. injection Hq as <-. auto.
      * destruct (is_name s ["right"]%string) eqn:E2; [|discriminate].
        apply is_name_one in E2 as ->. injection Hq as <-. right. split; [reflexivity|]. rewrite Hr. lra.
    + congruence.
    + eexists. split; [exact Ex|]. reflexivity.
  - apply resolve_ok in Ey. intros Hn. destruct (rs_y r) as [[q|s|]|]; cbn [y_doc].
    + eauto.
    + destruct Ey as (q & -> & Hq). exists q. split; [reflexivity|].
      destruct (is_name s ["top"]%string) eqn:E1.
      * apply is_name_one in E1 as ->. injection Hq as <-. auto.
      * destruct (is_name s ["bottom"]%string) eqn:E2; [|discriminate].
        apply is_name_one in E2 as ->. injection Hq as <-. right. split; [reflexivity|]. rewrite Hb. lra.
    + congruence.
    + eexists. split; [exact Ey|]. reflexivity.
Qed.

(** ** Documents *)
Section Doc.
Variable float_of : str -> res Q.
Context {C B : Type}.
Variable fill : C -> Q * Q * Q * Q -> page -> res (C * bool).
Variable draw : B -> Q * Q * Q * Q -> page -> res (Q * Q).
Variable iter : list str -> list str.
Hypothesis iter_perm : forall l, Permutation (iter l) l.

Notation section := (section C).
Notation document := (document C B).

(** The style of a section: the document's with the section's on top. *)
Definition own_style (d : document) (n : section) : pstyle := overlay (o_style d) (n_style n).

(** A page key is given by the document, by every section, or by nothing. *)
Definition unset {A} (g : pstyle -> option A) (d : document) (rules : list drule) : Prop :=
  g (o_style d) = None /\ (forall n, In n (o_sections d) -> g (n_style n) = None) /\
  (forall r, In r rules -> rule_has g r = None).
Definition settled {A} (g : pstyle -> option A) (d : document) (rules : list drule) : Prop :=
  g (o_style d) <> None \/ (forall n, In n (o_sections d) -> g (n_style n) <> None) \/ unset g d rules.

(** What page [n] of a section shows. *)
Definition running_ok (d : document) (rules : list drule) (sec : section) (n : Z) (p : page) (e : entry) : Prop :=
  (forall x, In x (map fst (e_running e)) <-> shown x rules n (n_running sec)) /\
  NoDup (map fst (e_running e)) /\
  (forall x a, In (x, a) (e_running e) -> exists r, dget x (o_running d) = Some r /\ placed_as p r a).
Definition rect_ok (p : page) (e : entry) : Prop :=
  let '(x, y, w, h) := e_rect e in
  x = p_ml p /\ (y == p_height p - p_mt p)%Q /\ (w == p_width p - p_ml p - p_mr p)%Q /\
  (h == p_height p - p_mt p - p_mb p)%Q.
Definition size_ok (d : document) (rules : list drule) (sec : section) (n : Z) (p : page) : Prop :=
  exists sz rot wh,
    decided y_size rules n (y_size (overlay defaults (own_style d sec))) sz /\
    decided y_rot rules n (y_rot (overlay defaults (own_style d sec))) rot /\
    size_is sz wh /\ (p_width p, p_height p) = (if rot : bool then (snd wh, fst wh) else wh).
Definition margin_ok (d : document) (rules : list drule) (sec : section) (n : Z) (p : page) : Prop :=
  exists m sides,
    decided y_margin rules n (y_margin (overlay defaults (own_style d sec))) m /\
    parse_margin float_of m = Ok sides /\
    dget (lit "top") sides = Some (p_mt p) /\ dget (lit "right") sides = Some (p_mr p) /\
    dget (lit "bottom") sides = Some (p_mb p) /\ dget (lit "left") sides = Some (p_ml p).

Definition inv (d : document) (rules : list drule) (s : pages_state) : Prop :=
  (unset y_size d rules -> page_pair (PName (lit "a4")) = Ok (ps_w s, ps_h s)) /\
  (unset y_rot d rules -> ps_rot s = false) /\
  (unset y_margin d rules -> parse_margin float_of (MNum (milli 56693)) = Ok (ps_margin s)).

Lemma good_size : good y_size. Proof. intros a b. reflexivity. Qed.
Lemma good_rot : good y_rot. Proof. intros a b. reflexivity. Qed.
Lemma good_margin : good y_margin. Proof. intros a b. reflexivity. Qed.

Lemma setup_page_ok s a b c s1 : setup_page float_of s a b c = Ok s1 ->
  ps_pages s1 = ps_pages s /\
  match a with Some p => page_pair p = Ok (ps_w s1, ps_h s1) | None => ps_w s1 = ps_w s /\ ps_h s1 = ps_h s end /\
  match b with Some r => ps_rot s1 = r | None => ps_rot s1 = ps_rot s end /\
  match c with Some m => parse_margin float_of m = Ok (ps_margin s1) | None => ps_margin s1 = ps_margin s end.
Proof.
  unfold setup_page. destruct a as [a|]; [destruct (page_pair a) as [[w h]|] eqn:Ea; [|discriminate]|];
    destruct c as [c|]; cbn [bind]; try (destruct (parse_margin float_of c) eqn:Ec; [|discriminate]; cbn [bind]);
    intros [= <-]; cbn; destruct b; auto.
Qed.

(** The value of a key on a page. *)
Lemma key_value {A} (g : pstyle -> option A) (d : document) rules sec n names : good g ->
  Forall valid_rule rules -> In sec (o_sections d) -> settled g d rules ->
  let r := g (fst (page_plan (map kept rules) n (own_style d sec) names)) in
  (exists v, r = Some v /\ decided g rules n (g (overlay defaults (own_style d sec))) v) \/
  (r = None /\ unset g d rules /\
   forall v, g defaults = Some v -> decided g rules n (g (overlay defaults (own_style d sec))) v).
Proof.
  intros Hg Hv Hin Hs r. unfold page_plan in r.
  destruct (g (own_style d sec)) as [u|] eqn:Eo.
  - assert (Hr : r <> None) by (apply plan_some; [exact Hg|cbn [fst]; congruence]).
    destruct r as [v|] eqn:Er; [|congruence]. left. exists v. split; [reflexivity|].
    apply plan_value in Er; [|exact Hg|exact Hv]. cbn [fst] in Er.
    rewrite Hg, Eo. cbn [over]. rewrite Eo in Er. exact Er.
  - assert (Hu : unset g d rules).
    { unfold own_style in Eo. rewrite Hg in Eo. destruct Hs as [Hs|[Hs|Hs]]; [| |exact Hs].
      - destruct (g (n_style sec)); cbn [over] in Eo; [discriminate|contradiction].
      - specialize (Hs sec Hin). destruct (g (n_style sec)); [discriminate|contradiction]. }
    right. split.
    { apply plan_none; [exact Hg|exact Eo|apply Hu]. }
    split; [exact Hu|]. intros v Hd. right. rewrite Hg, Eo. cbn [over].
    split; [exact Hd|]. intros r' Hr' _. apply Hu, Hr'.
Qed.

(** No rule or section touches an unset key. *)
Lemma key_unset {A} (g : pstyle -> option A) (d : document) rules sec n names : good g ->
  In sec (o_sections d) -> unset g d rules ->
  g (fst (page_plan (map kept rules) n (own_style d sec) names)) = None.
Proof.
  intros Hg Hin (H1 & H2 & H3). apply plan_none; [exact Hg| |exact H3].
  cbn [fst]. unfold own_style. rewrite Hg, H1, (H2 sec Hin). reflexivity.
Qed.

Lemma running_plan_ok dict pw ph m names l : running_plan dict pw ph m names = Ok l ->
  map (fun x => fst (fst x)) l = names /\
  forall x, In x l -> exists r, dget (fst (fst x)) dict = Some r /\ running_args pw ph m r = Ok (snd (fst x)) /\ snd x = rs_box (B:=B) r.
Proof.
  revert l. induction names as [|k names IH]; intros l H; cbn [running_plan] in H.
  - injection H as <-. split; [reflexivity|]. intros x [].
  - destruct (dget k dict) as [r|] eqn:Ek; [|discriminate]. cbn [bind] in H.
    destruct (running_args pw ph m r) as [a|] eqn:Ea; [|discriminate]. cbn [bind] in H.
    destruct (running_plan dict pw ph m names) as [l'|] eqn:El; [|discriminate]. cbn [bind] in H.
    injection H as <-. destruct (IH l' eq_refl) as [H1 H2]. cbn [map fst]. rewrite H1.
    split; [reflexivity|]. intros x [<-|Hx]; [|auto]. cbn [fst snd]. eauto.
Qed.

Lemma do_page_ok (d : document) rules k sec s c s' c' fin e :
  Forall valid_rule rules -> In sec (o_sections d) -> inv d rules s ->
  do_page float_of fill draw iter (map kept rules) (o_running d) k (own_style d sec) (n_running sec) s c = Ok (s', c', fin, e) ->
  exists p, ps_pages s' = ps_pages s ++ [p] /\ inv d rules s' /\ e_section e = k /\
    let n := Z.of_nat (length (ps_pages s)) in
    running_ok d rules sec n p e /\ rect_ok p e /\
    (settled y_size d rules -> settled y_rot d rules -> size_ok d rules sec n p) /\
    (settled y_margin d rules -> margin_ok d rules sec n p).
Proof.
  intros Hv Hin (I1 & I2 & I3) H. unfold do_page in H. set (n := Z.of_nat _) in *.
  pose proof (key_value y_size d rules sec n (n_running sec) good_size Hv Hin) as KS.
  pose proof (key_value y_rot d rules sec n (n_running sec) good_rot Hv Hin) as KR.
  pose proof (key_value y_margin d rules sec n (n_running sec) good_margin Hv Hin) as KM.
  pose proof (key_unset y_size d rules sec n (n_running sec) good_size Hin) as US.
  pose proof (key_unset y_rot d rules sec n (n_running sec) good_rot Hin) as UR.
  pose proof (key_unset y_margin d rules sec n (n_running sec) good_margin Hin) as UM.
  pose proof (plan_nodup n (map kept rules) (own_style d sec, sset (n_running sec)) (sset_nodup _)) as HND.
  assert (HSH : forall x, In x (snd (page_plan (map kept rules) n (own_style d sec) (n_running sec))) <->
            shown x rules n (n_running sec)).
  { intros x. unfold page_plan. rewrite plan_shown by exact Hv. unfold shown. cbn [snd]. rewrite sset_in. reflexivity. }
  unfold page_plan in *. 
  destruct (fold_left _ _ _) as [args set_] eqn:Eplan. cbn [fst snd] in *.
  destruct (setup_page float_of s (y_size args) (y_rot args) (y_margin args)) as [s1|] eqn:Es1; [|discriminate].
  cbn [bind] in H. apply setup_page_ok in Es1 as (P1 & W1 & R1 & M1).
  destruct (if ps_rot s1 then (ps_h s1, ps_w s1) else (ps_w s1, ps_h s1)) as [pw ph] eqn:Epw.
  destruct (need (lit "left") (ps_margin s1)) as [ml|] eqn:El; [|discriminate].
  destruct (need (lit "right") (ps_margin s1)) as [mr|] eqn:Er; [|discriminate].
  destruct (need (lit "top") (ps_margin s1)) as [mt|] eqn:Et; [|discriminate].
  destruct (need (lit "bottom") (ps_margin s1)) as [mb|] eqn:Eb; [|discriminate].
  cbn [bind] in H.
  destruct (running_plan _ _ _ _ _) as [plan|] eqn:Ep; [|discriminate]. cbn [bind] in H.
  destruct (add_page float_of _ None None None) as [[[]|] s2] eqn:Ea; [|discriminate].
  apply add_page_default in Ea as (p & Q1 & Q2 & Q3 & Q4 & Q5 & Q6 & Q7 & Q8 & Q9 & Q10).
  cbn [with_sections ps_pages ps_w ps_h ps_rot ps_margin] in *.
  destruct (rev (ps_pages s2)) as [|p' rr] eqn:Erev; [discriminate|].
  destruct (fill _ _ _) as [[c1 f1]|]; [|discriminate]. cbn [bind fst snd] in H.
  injection H as <- <- <- <-.
  apply need_ok in El, Er, Et, Eb. unfold margin_or_0 in *. rewrite El in Q9. rewrite Er in Q10. rewrite Et in Q7. rewrite Eb in Q8.
  rewrite Epw in Q6. injection Q6 as Hpw Hph.
  exists p. split; [congruence|]. split; [|split; [reflexivity|]].
  { split; [|split]; intros U.
    - specialize (US U). rewrite US in W1. destruct W1 as [W1 W2]. rewrite Q2, Q3, W1, W2. auto.
    - specialize (UR U). rewrite UR in R1. rewrite Q4, R1. auto.
    - specialize (UM U). rewrite UM in M1. rewrite Q5, M1. auto. }
  apply running_plan_ok in Ep as [Ep1 Ep2].
  assert (Hnames : map fst (map fst plan) = iter set_) by (rewrite map_map; exact Ep1).
  cbv zeta. split; [|split; [|split]].
  - unfold running_ok. cbn [e_running]. split; [|split].
    + intros x. rewrite Hnames, <- HSH. split; apply Permutation_in; [|symmetry]; apply iter_perm.
    + rewrite Hnames. eapply Permutation_NoDup; [symmetry; apply iter_perm|exact HND].
    + intros x a Hxa. apply in_map_iff in Hxa as ([[x1 a1] b1] & He & Hxa). cbn [fst] in He. injection He as -> ->.
      destruct (Ep2 _ Hxa) as (r & H1 & H2 & _). cbn [fst snd] in *. exists r. split; [exact H1|].
      eapply running_args_spec; [exact H2|congruence|congruence| | | |]; unfold margin_or_0;
        rewrite ?El, ?Er, ?Et, ?Eb; assumption.
  - unfold rect_ok. cbn [e_rect]. rewrite Hpw, Hph, Q7, Q8, Q9, Q10. repeat split; lra.
  - intros SS SR. specialize (KS SS). specialize (KR SR). cbv zeta in KS, KR.
    assert (HS : exists sz, decided y_size rules n (y_size (overlay defaults (own_style d sec))) sz /\
              page_pair sz = Ok (ps_w s1, ps_h s1)).
    { destruct KS as [(v & E & D)|(E & U & D)]; rewrite E in W1.
      - exists v. auto.
      - exists (PName (lit "a4")). split; [apply D; reflexivity|]. destruct W1 as [-> ->]. auto. }
    assert (HR : decided y_rot rules n (y_rot (overlay defaults (own_style d sec))) (ps_rot s1)).
    { destruct KR as [(v & E & D)|(E & U & D)]; rewrite E in R1.
      - subst v. exact D.
      - rewrite R1, (I2 U). apply D. reflexivity. }
    destruct HS as (sz & HS1 & HS2). exists sz, (ps_rot s1), (ps_w s1, ps_h s1).
    split; [exact HS1|]. split; [exact HR|]. split; [apply size_is_pair, HS2|].
    cbn [fst snd]. rewrite Hpw, Hph. symmetry. exact Epw.
  - intros SM. specialize (KM SM). cbv zeta in KM.
    assert (HM : exists m, decided y_margin rules n (y_margin (overlay defaults (own_style d sec))) m /\
              parse_margin float_of m = Ok (ps_margin s1)).
    { destruct KM as [(v & E & D)|(E & U & D)]; rewrite E in M1.
      - exists v. auto.
      - exists (MNum (milli 56693)). split; [apply D; reflexivity|]. rewrite M1. auto. }
    destruct HM as (m & HM1 & HM2). exists m, (ps_margin s1).
    rewrite Q7, Q8, Q9, Q10. auto 8.
Qed.

(** The pages of a section: the new ones follow the others. *)
Definition pages_ok (d : document) (rules : list drule) (from : nat) (pages : list page) (log : list entry) : Prop :=
  length log = length pages /\
  forall i p e, nth_error pages i = Some p -> nth_error log i = Some e ->
    exists sec, nth_error (o_sections d) (e_section e) = Some sec /\
      let n := Z.of_nat (from + i) in
      running_ok d rules sec n p e /\ rect_ok p e /\
      (settled y_size d rules -> settled y_rot d rules -> size_ok d rules sec n p) /\
      (settled y_margin d rules -> margin_ok d rules sec n p).

Lemma pages_ok_app (d : document) rules from p1 l1 p2 l2 :
  pages_ok d rules from p1 l1 -> pages_ok d rules (from + length p1) p2 l2 ->
  pages_ok d rules from (p1 ++ p2) (l1 ++ l2).
Proof.
  intros [L1 H1] [L2 H2]. split; [rewrite !app_length; lia|]. intros i p e Hp He.
  destruct (Nat.lt_ge_cases i (length p1)) as [Hi|Hi].
  - rewrite nth_error_app1 in Hp by exact Hi. rewrite nth_error_app1 in He by lia. eauto.
  - rewrite nth_error_app2 in Hp by exact Hi. rewrite nth_error_app2 in He by lia.
    rewrite L1 in He. destruct (H2 _ _ _ Hp He) as (sec & Hs & Hr). exists sec. split; [exact Hs|].
    replace (from + i)%nat with (from + length p1 + (i - length p1))%nat by lia. exact Hr.
Qed.

Lemma pages_loop_ok (d : document) rules k sec : nth_error (o_sections d) k = Some sec ->
  Forall valid_rule rules -> forall fuel s c s' log, inv d rules s ->
  pages_loop float_of fill draw iter (map kept rules) (o_running d) k (own_style d sec) (n_running sec) fuel s c = Ok (s', log) ->
  inv d rules s' /\ exists new, ps_pages s' = ps_pages s ++ new /\ new <> [] /\
    Forall (fun e => e_section e = k) log /\ pages_ok d rules (length (ps_pages s)) new log.
Proof.
  intros Hk Hv. assert (Hin : In sec (o_sections d)) by (eapply nth_error_In, Hk).
  induction fuel as [|fuel IH]; intros s c s' log Hi H; cbn [pages_loop] in H; [discriminate|].
  destruct (do_page _ _ _ _ _ _ _ _ _ _ _) as [[[[s1 c1] fin] e]|] eqn:Ed; [|discriminate].
  cbn [bind] in H. apply do_page_ok in Ed; try assumption.
  destruct Ed as (p & Hp & Hi1 & He & Hok). cbv zeta in Hok.
  assert (H1 : pages_ok d rules (length (ps_pages s)) [p] [e]).
  { split; [reflexivity|]. intros [|i] p0 e0 Ep Ee; cbn in Ep, Ee; [|destruct i; discriminate].
    injection Ep as <-. injection Ee as <-. exists sec. rewrite He. split; [exact Hk|].
    rewrite Nat.add_0_r. exact Hok. }
  destruct fin.
  - injection H as <- <-. split; [exact Hi1|]. exists [p]. repeat (split; [first [assumption|discriminate]|]).
    split; [repeat constructor; exact He|exact H1].
  - destruct (pages_loop _ _ _ _ _ _ _ _ _ _ _ _) as [[s2 log2]|] eqn:El; [|discriminate].
    cbn [bind fst snd] in H. injection H as <- <-.
    destruct (IH _ _ _ _ Hi1 El) as (Hi2 & new & Hn & Hne & Hf & Hok2).
    split; [exact Hi2|]. exists (p :: new). split; [rewrite Hn, Hp, <- app_assoc; reflexivity|].
    split; [discriminate|]. split; [constructor; assumption|].
    change (p :: new) with ([p] ++ new). change (e :: log2) with ([e] ++ log2).
    apply pages_ok_app; [exact H1|]. rewrite Hp, app_length in Hok2. exact Hok2.
Qed.

Lemma nth_error_app_mid {A} (pre : list A) x post : nth_error (pre ++ x :: post) (length pre) = Some x.
Proof. rewrite nth_error_app2 by lia. rewrite Nat.sub_diag. reflexivity. Qed.

Lemma process_sections_ok (d : document) rules fuel : Forall valid_rule rules ->
  forall l pre s s' log, o_sections d = pre ++ l -> inv d rules s ->
  process_sections float_of fill draw iter d (map kept rules) (length pre) fuel s l = Ok (s', log) ->
  exists new logs, ps_pages s' = ps_pages s ++ new /\ log = concat logs /\
    length logs = length l /\
    (forall j es, nth_error logs j = Some es -> es <> [] /\ Forall (fun e => e_section e = (length pre + j)%nat) es) /\
    pages_ok d rules (length (ps_pages s)) new log.
Proof.
  intros Hv. induction l as [|n rest IH]; intros pre s s' log Hd Hi H; cbn [process_sections] in H.
  - injection H as <- <-. exists [], []. rewrite app_nil_r. repeat (split; [reflexivity|]). split.
    + intros [|j] es Hj; discriminate.
    + split; [reflexivity|]. intros [|i] p e Hp; discriminate.
  - destruct (process_section _ _ _ _ _ _ _ _ _ _) as [[s1 l1]|] eqn:E1; [|discriminate].
    cbn [bind fst snd] in H.
    destruct (process_sections _ _ _ _ _ _ _ _ _ _) as [[s2 l2]|] eqn:E2; [|discriminate].
    cbn [bind fst snd] in H. injection H as <- <-.
    assert (Hk : nth_error (o_sections d) (length pre) = Some n) by (rewrite Hd; apply nth_error_app_mid).
    unfold process_section in E1. fold (own_style d n) in E1.
    match type of E1 with pages_loop _ _ _ _ _ _ _ _ _ _ ?x _ = _ =>
      assert (Hi0 : inv d rules x) by exact Hi; set (s0 := x) in * end.
    destruct (pages_loop_ok d rules _ _ Hk Hv _ _ _ _ _ Hi0 E1) as (Hi1 & new1 & Hn1 & Hne1 & Hf1 & Hok1).
    change (ps_pages s0) with (ps_pages s) in *.
    replace (S (length pre)) with (length (pre ++ [n])) in E2 by (rewrite app_length; cbn; lia).
    destruct (IH (pre ++ [n]) s1 s2 l2) as (new2 & logs2 & Hn2 & Hl2 & Hlen2 & Hf2 & Hok2);
      [rewrite Hd, <- app_assoc; reflexivity|exact Hi1|exact E2|].
    exists (new1 ++ new2), (l1 :: logs2). split; [rewrite Hn2, Hn1, app_assoc; reflexivity|].
    split; [cbn [concat]; congruence|]. split; [cbn [length]; congruence|]. split.
    + intros [|j] es Hj; cbn in Hj.
      * injection Hj as <-. rewrite Nat.add_0_r. split; [|exact Hf1].
        destruct Hok1 as [Hlen _]. intros ->. destruct new1; [congruence|discriminate].
      * destruct (Hf2 j es Hj) as [Ha Hb]. split; [exact Ha|].
        replace (length pre + S j)%nat with (length (pre ++ [n]) + j)%nat by (rewrite app_length; cbn; lia).
        exact Hb.
    + apply pages_ok_app; [exact Hok1|]. rewrite Hn1, app_length in Hok2. exact Hok2.
Qed.

Lemma first_state_inv (d : document) rules s : first_state float_of d = Ok s -> ps_pages s = [] /\ inv d rules s.
Proof.
  unfold first_state. intros H. apply setup_page_ok in H as (H1 & H2 & H3 & H4).
  split; [exact H1|]. cbn [overlay y_size y_rot y_margin defaults] in *.
  split; [|split]; intros (U & _); rewrite U in *; cbn [over] in *; assumption.
Qed.

(** Every page of a built document. *)
Theorem build_ok (d : document) rules fuel s log :
  o_rules d = map written rules -> Forall valid_rule rules ->
  build float_of fill draw iter fuel d = Ok (s, log) ->
  pages_ok d rules 0 (ps_pages s) log /\
  exists logs, log = concat logs /\ length logs = length (o_sections d) /\
    forall j es, nth_error logs j = Some es -> es <> [] /\ Forall (fun e => e_section e = j) es.
Proof.
  intros Hr Hv H. unfold build in H. rewrite Hr, read_rules in H by exact Hv. cbn [bind] in H.
  destruct (first_state float_of d) as [s0|] eqn:E0; [|discriminate]. cbn [bind] in H.
  apply first_state_inv with (rules := rules) in E0 as [Hp Hi].
  destruct (process_sections_ok d rules fuel Hv (o_sections d) [] s0 s log eq_refl Hi H)
    as (new & logs & Hn & Hl & Hlen & Hf & Hok).
  rewrite Hp in Hn, Hok. cbn [app length] in *. rewrite Hn. split; [exact Hok|]. eauto.
Qed.
End Doc.
