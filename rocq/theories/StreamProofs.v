(** Proofs about stream objects and about repeated serialization. *)
From Verif Require Import Py PdfSyntax Parser Denote ParserProofs.
From Coq Require Import String.
Open Scope N_scope.
Open Scope list_scope.

Definition keys {V} (d : list (str * V)) : list str := map fst d.

(** ** Association lists *)

Lemma dget_in {V} k (d : list (str * V)) v : dget k d = Some v -> In (k, v) d.
Proof.
  induction d as [|[k' v'] d IH]; cbn [dget]; [discriminate|].
  destruct (str_eqb k k') eqn:E.
  - apply str_eqb_eq in E; subst. intros [= ->]; now left.
  - intros H. right. auto.
Qed.

Lemma dget_none {V} k (d : list (str * V)) : dget k d = None <-> ~ In k (keys d).
Proof.
  unfold keys. induction d as [|[k' v'] d IH]; cbn [dget map fst In].
  - tauto.
  - destruct (str_eqb k k') eqn:E.
    + apply str_eqb_eq in E; subst. split; [discriminate|]. intros H. exfalso; auto.
    + apply str_eqb_neq in E. rewrite IH. split; [intros H [H'|H']; congruence|tauto].
Qed.

Lemma keys_dpop {V} k (d : list (str * V)) x : In x (keys (dpop k d)) -> In x (keys d).
Proof.
  unfold keys. rewrite !in_map_iff. intros (y & E & H). exists y. split; [exact E|].
  eapply in_dpop; eauto.
Qed.

Lemma nodup_dpop {V} k (d : list (str * V)) : NoDup (keys d) ->
  NoDup (keys (dpop k d)) /\ ~ In k (keys (dpop k d)).
Proof.
  induction d as [|[k' v'] d IH]; cbn [dpop keys map fst].
  - intros H; split; [exact H|cbn; tauto].
  - intros H. inversion H as [|? ? H1 H2]; subst.
    destruct (str_eqb k k') eqn:E.
    + apply str_eqb_eq in E; subst. split; assumption.
    + apply str_eqb_neq in E. destruct (IH H2) as [Ha Hb]. cbn [map fst]. split.
      * constructor; [|exact Ha]. intros Hin. apply H1. eapply keys_dpop; eauto.
      * cbn. intros [H3|H3]; [congruence|]. exact (Hb H3).
Qed.

Lemma keys_dset {V} k (v : V) d x : In x (keys (dset k v d)) <-> x = k \/ In x (keys d).
Proof.
  induction d as [|[k' v'] d IH]; cbn [dset keys map fst In].
  - intuition congruence.
  - destruct (str_eqb k k') eqn:E; cbn [map fst In].
    + apply str_eqb_eq in E; subst. intuition congruence.
    + unfold keys in IH. rewrite IH. intuition congruence.
Qed.

Lemma nodup_dset {V} k (v : V) d : NoDup (keys d) -> NoDup (keys (dset k v d)).
Proof.
  induction d as [|[k' v'] d IH]; cbn [dset keys map fst].
  - intros _. constructor; [cbn; tauto|constructor].
  - intros H. inversion H as [|? ? H1 H2]; subst.
    destruct (str_eqb k k') eqn:E; cbn [map fst].
    + constructor; assumption.
    + apply str_eqb_neq in E. constructor; [|auto].
      intros Hin. apply keys_dset in Hin as [->|Hin]; auto.
Qed.

Lemma dset_absent {V} k (v : V) d : ~ In k (keys d) -> dset k v d = d ++ [(k, v)].
Proof.
  induction d as [|[k' v'] d IH]; cbn [dset keys map fst In]; [reflexivity|].
  intros H. destruct (str_eqb k k') eqn:E.
  - apply str_eqb_eq in E. subst. tauto.
  - cbn [app]. f_equal. apply IH. tauto.
Qed.

Lemma dpop_absent {V} k (d : list (str * V)) : ~ In k (keys d) -> dpop k d = d.
Proof.
  induction d as [|[k' v'] d IH]; cbn [dpop keys map fst In]; [reflexivity|].
  intros H. destruct (str_eqb k k') eqn:E.
  - apply str_eqb_eq in E. subst. tauto.
  - f_equal. apply IH. tauto.
Qed.

Lemma dget_dset_same {V} k (v : V) d : dget k (dset k v d) = Some v.
Proof.
  induction d as [|[k' v'] d IH]; cbn [dset dget].
  - now rewrite str_eqb_refl.
  - destruct (str_eqb k k') eqn:E; cbn [dget]; now rewrite E.
Qed.

Lemma dget_dset_other {V} k k2 (v : V) d : k2 <> k -> dget k2 (dset k v d) = dget k2 d.
Proof.
  intros H. induction d as [|[k' v'] d IH]; cbn [dset dget].
  - apply str_eqb_neq in H. now rewrite H.
  - destruct (str_eqb k k') eqn:E; cbn [dget].
    + apply str_eqb_eq in E; subst k'. apply str_eqb_neq in H. now rewrite H.
    + now rewrite IH.
Qed.

Lemma dget_app {V} k (d e : list (str * V)) :
  dget k (d ++ e) = match dget k d with Some v => Some v | None => dget k e end.
Proof.
  induction d as [|[k' v'] d IH]; cbn [app dget]; [reflexivity|].
  destruct (str_eqb k k'); [reflexivity|exact IH].
Qed.

Lemma dpop_app_absent {V} k (d e : list (str * V)) :
  ~ In k (keys d) -> dpop k (d ++ e) = d ++ dpop k e.
Proof.
  induction d as [|[k' v'] d IH]; cbn [app dpop keys map fst In]; [reflexivity|].
  intros H. destruct (str_eqb k k') eqn:E.
  - apply str_eqb_eq in E. subst. tauto.
  - f_equal. apply IH. tauto.
Qed.

Lemma dset_same_value {V} k (v : V) d : dget k d = Some v -> dset k v d = d.
Proof.
  induction d as [|[k' v'] d IH]; cbn [dget dset]; [discriminate|].
  destruct (str_eqb k k') eqn:E.
  - intros [= ->]. reflexivity.
  - intros H. f_equal. auto.
Qed.

(** Well formed python dicts: keys are distinct, at every level. *)
Inductive wf : obj -> Prop :=
| wf_obj id v : wf v -> wf (OObj id v)
| wf_ref n : wf (ORef n)
| wf_dict d : NoDup (keys d) -> (forall k v, In (k, v) d -> wf v) -> wf (ODict d)
| wf_seq l : (forall v, In v l -> wf v) -> wf (OSeq l)
| wf_bytes b : wf (OBytes b)
| wf_bool b : wf (OBool b)
| wf_int z : wf (OInt z)
| wf_float r : wf (OFloat r)
| wf_str s : wf (OStr s)
| wf_none : wf ONone.

Section Twice.
Variable flate : bytes -> bytes.
Notation parse_obj := (parse_obj flate).

(** ** Serializing again *)

Definition again (pv : obj -> res bytes * obj) (v : obj) : Prop :=
  forall b v', pv v = (Ok b, v') -> pv v' = (Ok b, v') /\ wf v'.

Lemma pdict_again pv d : (forall k v, In (k, v) d -> again pv v) ->
  forall acc b d', pdict pv acc d = (Ok b, d') ->
  pdict pv acc d' = (Ok b, d') /\ keys d' = keys d /\ (forall k v, In (k, v) d' -> wf v).
Proof.
  induction d as [|[k v] d IH]; intros Hag acc b d' H.
  - cbn [pdict] in H. injection H as <- <-. repeat split. intros k v [].
  - cbn [pdict] in H. destruct (encode_latin k) as [kb|e] eqn:Ek; [|discriminate].
    destruct (pv v) as [r v'] eqn:Ev. destruct r as [[|c bb]|e]; try discriminate.
    destruct (pdict pv (acc ++ 47 :: kb ++ 32 :: c :: bb) d) as [r2 d2] eqn:Ed.
    injection H as -> <-.
    destruct (Hag k v (or_introl eq_refl) _ _ Ev) as [Ev' Hwf].
    destruct (IH (fun k0 v0 Hin => Hag k0 v0 (or_intror Hin)) _ _ _ Ed) as (E1 & E2 & E3).
    cbn [pdict]. rewrite Ek, Ev', E1. repeat split.
    + cbn [keys map fst]. f_equal. exact E2.
    + intros k0 v0 [[= <- <-]|Hin]; [exact Hwf|eauto].
Qed.

Lemma pseq_again pv l : (forall v, In v l -> again pv v) ->
  forall first acc b l', pseq pv first acc l = (Ok b, l') ->
  pseq pv first acc l' = (Ok b, l') /\ (forall v, In v l' -> wf v).
Proof.
  induction l as [|v l IH]; intros Hag first acc b l' H.
  - cbn [pseq] in H. injection H as <- <-. split; [reflexivity|]. intros v [].
  - cbn [pseq] in H.
    destruct (pv v) as [r v'] eqn:Ev. destruct r as [[|c bb]|e]; try discriminate.
    destruct (pseq pv false (acc ++ (if first then [] else [32]) ++ c :: bb) l) as [r2 d2] eqn:Ed.
    injection H as -> <-.
    destruct (Hag v (or_introl eq_refl) _ _ Ev) as [Ev' Hwf].
    destruct (IH (fun v0 Hin => Hag v0 (or_intror Hin)) _ _ _ _ Ed) as (E1 & E2).
    cbn [pseq]. rewrite Ev', E1. split; [reflexivity|].
    intros v0 [<-|Hin]; [exact Hwf|eauto].
Qed.

(** The value of a key after the values have been serialized. *)
Lemma pdict_dget pv d : forall acc b d', pdict pv acc d = (Ok b, d') ->
  forall k, match dget k d with
            | None => dget k d' = None
            | Some v => exists r, pv v = (Ok r, match dget k d' with Some v' => v' | None => v end)
                                  /\ dget k d' <> None
            end.
Proof.
  induction d as [|[k1 v1] d IH]; intros acc b d' H k.
  - cbn [pdict] in H. injection H as <- <-. reflexivity.
  - cbn [pdict] in H. destruct (encode_latin k1) as [kb|e] eqn:Ek; [|discriminate].
    destruct (pv v1) as [r v'] eqn:Ev. destruct r as [[|c bb]|e]; try discriminate.
    destruct (pdict pv (acc ++ 47 :: kb ++ 32 :: c :: bb) d) as [r2 d2] eqn:Ed.
    injection H as -> <-. cbn [dget]. destruct (str_eqb k k1).
    + exists (c :: bb). split; [exact Ev|discriminate].
    + eapply IH; eauto.
Qed.

Lemma k_neq1 : k_stream <> k_Length. Proof. discriminate. Qed.
Lemma k_neq2 : k_skip <> k_Length. Proof. discriminate. Qed.
Lemma k_neq3 : k_skip <> k_stream. Proof. discriminate. Qed.
Lemma k_neq4 : k_Filter <> k_Length. Proof. discriminate. Qed.

Lemma pstream_again d b d' : NoDup (keys d) ->
  (forall k v, In (k, v) d -> wf v) ->
  (forall k v, In (k, v) d -> again parse_obj v) ->
  pstream flate parse_obj d = (Ok b, d') ->
  dmem k_stream d' = true /\ pstream flate parse_obj d' = (Ok b, d') /\
  NoDup (keys d') /\ (forall k v, In (k, v) d' -> wf v).
Proof.
  intros Hnd Hwf Hag. unfold pstream at 1.
  destruct (dget k_stream d) as [s|] eqn:Es; [|discriminate]. cbv zeta.
  set (d1 := dpop k_stream d). set (d2 := dpop k_skip d1).
  destruct (nodup_dpop k_stream d Hnd) as [Hnd1 Hno1]. fold d1 in Hnd1, Hno1.
  destruct (nodup_dpop k_skip d1 Hnd1) as [Hnd2 Hno2]. fold d2 in Hnd2, Hno2.
  assert (Hno2s : ~ In k_stream (keys d2)) by (intros H; apply Hno1; eapply keys_dpop; eauto).
  set (skip := match dget k_skip d1 with Some o => truthy o | None => false end).
  destruct (stream_string s) as [ss|e] eqn:Ess; [|discriminate].
  destruct (match dget k_Filter d2 with
            | Some f => if skip then Ok ss else encode_stream flate ss f
            | None => Ok ss end) as [st|e] eqn:Eenc; [|discriminate].
  set (n := OInt (Z.of_nat (List.length st))).
  set (d3 := dset k_Length n d2).
  destruct (pdict parse_obj (lit "<<") d3) as [r d4] eqn:Ed.
  destruct r as [db|e]; [|discriminate].
  intros [= <- <-].
  assert (Hag3 : forall k v, In (k, v) d3 -> again parse_obj v).
  { intros k v Hin. apply in_dset in Hin as [Hv|Hin].
    - cbn in Hv. subst v. intros b0 v' Hp. rewrite parse_obj_eq in Hp.
      injection Hp as <- <-. split; [rewrite parse_obj_eq; reflexivity|constructor].
    - eapply Hag. eapply in_dpop, in_dpop. exact Hin. }
  destruct (pdict_again parse_obj d3 Hag3 _ _ _ Ed) as (Ed4 & Ek4 & Hwf4).
  pose proof (pdict_dget parse_obj d3 _ _ _ Ed) as Hget.
  assert (Hnd4 : NoDup (keys d4)) by (rewrite Ek4; apply nodup_dset, Hnd2).
  assert (Hs4 : ~ In k_stream (keys d4)).
  { rewrite Ek4. intros H. apply keys_dset in H as [H|H]; [exact (k_neq1 H)|auto]. }
  assert (Hk4 : ~ In k_skip (keys d4)).
  { rewrite Ek4. intros H. apply keys_dset in H as [H|H]; [exact (k_neq2 H)|auto]. }
  set (tl := (k_stream, s) :: (if skip then [(k_skip, OBool true)] else [])).
  assert (E6 : (if skip then dset k_skip (OBool true) (dset k_stream s d4)
                else dset k_stream s d4) = d4 ++ tl).
  { rewrite (dset_absent k_stream s d4 Hs4). unfold tl. destruct skip; [|reflexivity].
    rewrite dset_absent, <- app_assoc; [reflexivity|].
    unfold keys. rewrite map_app, in_app_iff. intros [H|[H|[]]]; [auto|].
    cbn in H. symmetry in H. exact (k_neq3 H). }
  rewrite E6.
  assert (Hgs : dget k_stream (d4 ++ tl) = Some s).
  { rewrite dget_app. rewrite (proj2 (dget_none k_stream d4) Hs4). unfold tl.
    cbn [dget]. now rewrite str_eqb_refl. }
  assert (Hpop1 : dpop k_stream (d4 ++ tl) = d4 ++ (if skip then [(k_skip, OBool true)] else [])).
  { rewrite dpop_app_absent by exact Hs4. unfold tl. cbn [dpop].
    now rewrite str_eqb_refl. }
  assert (Hpop2 : dpop k_skip (d4 ++ (if skip then [(k_skip, OBool true)] else [])) = d4).
  { rewrite dpop_app_absent by exact Hk4. destruct skip; cbn [dpop];
      [rewrite str_eqb_refl|]; apply app_nil_r. }
  assert (Hskip : match dget k_skip (d4 ++ (if skip then [(k_skip, OBool true)] else [])) with
                  | Some o => truthy o | None => false end = skip).
  { rewrite dget_app, (proj2 (dget_none k_skip d4) Hk4).
    destruct skip; cbn [dget]; [rewrite str_eqb_refl|]; reflexivity. }
  assert (Hlen : dset k_Length n d4 = d4).
  { apply dset_same_value. specialize (Hget k_Length). unfold d3 in Hget.
    rewrite dget_dset_same in Hget. destruct Hget as (r & Hr & Hne).
    destruct (dget k_Length d4) as [v'|]; [|congruence].
    rewrite parse_obj_eq in Hr. unfold n in Hr. injection Hr as _ <-. reflexivity. }
  assert (Henc : match dget k_Filter d4 with
            | Some f => if skip then Ok ss else encode_stream flate ss f
            | None => Ok ss end = Ok st).
  { specialize (Hget k_Filter). unfold d3 in Hget.
    rewrite dget_dset_other in Hget by exact k_neq4.
    destruct (dget k_Filter d2) as [f|].
    - destruct Hget as (r & Hr & Hne).
      destruct (dget k_Filter d4) as [f'|]; [|congruence].
      destruct skip; [exact Eenc|].
      destruct f; try discriminate. rewrite parse_obj_eq in Hr. injection Hr as _ <-.
      exact Eenc.
    - rewrite Hget. exact Eenc. }
  split; [|split; [|split]].
  - unfold dmem. now rewrite Hgs.
  - unfold pstream. rewrite Hgs. cbv zeta. rewrite Hpop1, Hpop2, Hskip, Ess.
    rewrite Henc. fold n. rewrite Hlen, Ed4, E6. reflexivity.
  - unfold keys. rewrite map_app. fold (keys d4). unfold tl.
    assert (NoDup (keys d4 ++ [k_stream])) as H1.
    { apply NoDup_Add with (a := k_stream) (l := keys d4).
      - rewrite <- (app_nil_r (keys d4)) at 1. apply Add_app.
      - split; assumption. }
    destruct skip; cbn [map fst]; [|exact H1].
    change [k_stream; k_skip] with ([k_stream] ++ [k_skip]). rewrite app_assoc.
    apply NoDup_Add with (a := k_skip) (l := keys d4 ++ [k_stream]).
    + rewrite <- (app_nil_r (keys d4 ++ [k_stream])) at 1. apply Add_app.
    + split; [exact H1|]. rewrite in_app_iff. intros [H|[H|[]]]; [auto|].
      symmetry in H. exact (k_neq3 H).
  - intros k v Hin. apply in_app_iff in Hin as [Hin|Hin]; [eauto|].
    unfold tl in Hin. destruct Hin as [[= <- <-]|Hin].
    + eapply Hwf. apply dget_in. exact Es.
    + destruct skip; [|destruct Hin]. destruct Hin as [[= <- <-]|[]]. constructor.
Qed.

Theorem parse_again : forall n o, (depth o < n)%nat -> wf o -> again parse_obj o.
Proof.
  induction n as [|n IH]; intros o Hn Hwf; [lia|].
  intros b o' H. destruct o; rewrite parse_obj_eq in H.
  - inversion Hwf; subst. cbn [depth] in Hn.
    destruct (parse_obj o) as [r v'] eqn:E. injection H as -> <-.
    destruct (IH o ltac:(lia) ltac:(assumption) _ _ E) as [E1 E2].
    split; [rewrite parse_obj_eq, E1; reflexivity|constructor; exact E2].
  - injection H as <- <-. split; [rewrite parse_obj_eq; reflexivity|constructor].
  - inversion Hwf as [| |? Hnd Hv| | | | | | |]; subst.
    cbn [depth] in Hn. change (fold_right _ _ d) with (dict_depth d) in Hn.
    assert (Hag : forall k v, In (k, v) d -> again parse_obj v).
    { intros k v Hin. apply IH; [|eauto]. apply depth_in_dict in Hin. lia. }
    destruct (dmem k_stream d) eqn:Em.
    + destruct (pstream flate parse_obj d) as [r d'] eqn:E. injection H as -> <-.
      destruct (pstream_again d b d' Hnd Hv Hag E) as (E1 & E2 & E3 & E4).
      split; [rewrite parse_obj_eq, E1, E2; reflexivity|constructor; assumption].
    + destruct (pdict parse_obj (lit "<<") d) as [r d'] eqn:E. injection H as -> <-.
      destruct (pdict_again _ d Hag _ _ _ E) as (E1 & E2 & E3).
      assert (dmem k_stream d' = false) as Em'.
      { unfold dmem in *. pose proof (pdict_dget _ _ _ _ _ E k_stream) as Hg.
        destruct (dget k_stream d); [discriminate|]. now rewrite Hg. }
      split; [rewrite parse_obj_eq, Em', E1; reflexivity|].
      constructor; [rewrite E2; exact Hnd|exact E3].
  - inversion Hwf; subst.
    destruct (pseq parse_obj true (lit "[") l) as [r l'] eqn:E. injection H as -> <-.
    assert (Hag : forall v, In v l -> again parse_obj v).
    { intros v Hin. apply IH; [|eauto]. apply depth_in_seq in Hin. lia. }
    destruct (pseq_again _ l Hag _ _ _ _ E) as (E1 & E2).
    split; [rewrite parse_obj_eq, E1; reflexivity|constructor; exact E2].
  - injection H as <- <-. split; [rewrite parse_obj_eq; reflexivity|constructor].
  - injection H as <- <-. split; [rewrite parse_obj_eq; reflexivity|constructor].
  - injection H as <- <-. split; [rewrite parse_obj_eq; reflexivity|constructor].
  - injection H as H <-. split; [rewrite parse_obj_eq, H; reflexivity|constructor].
  - injection H as H <-. split; [rewrite parse_obj_eq, H; reflexivity|constructor].
  - discriminate.
Qed.

Corollary parse_twice o b o' : wf o -> parse_obj o = (Ok b, o') ->
  parse_obj o' = (Ok b, o') /\ wf o'.
Proof. intros H. exact (parse_again _ o (Nat.lt_succ_diag_r _) H b o'). Qed.

(** ** Reading a stream back *)

Definition special (k : str) : bool :=
  str_eqb k k_stream || str_eqb k k_skip || str_eqb k k_Length.

Definition ordinary {V} (d : list (str * V)) : list (str * V) :=
  filter (fun kv => negb (special (fst kv))) d.

Lemma filter_dpop {V} (p : str * V -> bool) k d :
  (forall v, p (k, v) = false) -> filter p (dpop k d) = filter p d.
Proof.
  intros Hp. induction d as [|[k' v'] d IH]; cbn [dpop filter]; [reflexivity|].
  destruct (str_eqb k k') eqn:E.
  - apply str_eqb_eq in E; subst. now rewrite Hp.
  - cbn [filter]. now rewrite IH.
Qed.

Lemma filter_all {V} (p : str * V -> bool) d :
  (forall x, In x d -> p x = true) -> filter p d = d.
Proof.
  induction d as [|x d IH]; intros H; cbn [filter]; [reflexivity|].
  rewrite (H x) by (left; reflexivity). f_equal. apply IH. intros y Hy. apply H. now right.
Qed.

Lemma denote_dset_length n e vs : NoDup (keys e) ->
  denote_dict (filter (fun kv => negb (str_eqb (fst kv) k_Length)) e) = Some vs ->
  exists dv, denote_dict (dset k_Length (OInt n) e) = Some dv /\
    assoc k_Length dv = Some (VInt n) /\
    (forall k, k <> k_Length -> assoc k dv = assoc k vs).
Proof.
  revert vs. induction e as [|[k v] e IH]; intros vs Hnd H.
  - cbn in H. injection H as <-. exists [(k_Length, VInt n)]. repeat split.
    intros k Hk. cbn [assoc]. apply str_eqb_neq in Hk. now rewrite Hk.
  - inversion Hnd as [|? ? H1 H2]; subst.
    cbn [filter fst] in H. cbn [dset].
    rewrite (str_eqb_sym k_Length k).
    destruct (str_eqb k k_Length) eqn:E; cbn [negb] in H.
    + apply str_eqb_eq in E. subst k.
      rewrite filter_all in H.
      2:{ intros [k0 v0] Hin. cbn [fst]. apply negb_true_iff, str_eqb_neq.
          intros ->. apply H1. apply in_map_iff. exists (k_Length, v0); auto. }
      exists ((k_Length, VInt n) :: vs). repeat split.
      * cbn [denote_dict]. change (plain_name k_Length) with true. cbv iota.
        cbn [denote]. now rewrite H.
      * intros k Hk. cbn [assoc]. apply str_eqb_neq in Hk. now rewrite Hk.
    + cbn [denote_dict] in H. cbn [denote_dict].
      destruct (plain_name k); [|discriminate].
      destruct (denote v) as [v'|]; [|discriminate].
      destruct (denote_dict (filter (fun kv => negb (str_eqb (fst kv) k_Length)) e))
        as [vs'|] eqn:Ee; [|discriminate].
      injection H as <-. destruct (IH vs' H2 eq_refl) as (dv & E1 & E2 & E3).
      rewrite E1. exists ((k, v') :: dv). repeat split.
      * cbn [assoc]. rewrite str_eqb_sym, E. exact E2.
      * intros k0 Hk0. cbn [assoc]. destruct (str_eqb k0 k); [reflexivity|auto].
Qed.

Lemma filter_split {V} (d : list (str * V)) : NoDup (keys d) ->
  filter (fun kv => negb (str_eqb (fst kv) k_Length)) (dpop k_skip (dpop k_stream d)) =
  ordinary d.
Proof.
  intros Hnd.
  destruct (nodup_dpop k_stream d Hnd) as [Hnd1 Hno1].
  destruct (nodup_dpop k_skip _ Hnd1) as [Hnd2 Hno2].
  transitivity (ordinary (dpop k_skip (dpop k_stream d))).
  - unfold ordinary. apply filter_ext_in. intros [k v] Hin. cbn [fst]. unfold special.
    assert (In k (keys (dpop k_skip (dpop k_stream d)))) as Hk
      by (apply in_map_iff; exists (k, v); auto).
    assert (str_eqb k k_stream = false) as E1.
    { apply str_eqb_neq. intros ->. apply Hno1. eapply keys_dpop; eauto. }
    assert (str_eqb k k_skip = false) as E2.
    { apply str_eqb_neq. intros ->. auto. }
    rewrite E1, E2. reflexivity.
  - unfold ordinary. rewrite filter_dpop, filter_dpop; [reflexivity| |];
      intros v; reflexivity.
Qed.

(** Specification: the bytes a stream dictionary should carry. *)
Fixpoint chunk_list (d : list (str * obj)) : option (list bytes) :=
  match d with
  | [] => Some []
  | (_, OBytes b) :: r =>
      match chunk_list r with Some l => Some (b :: l) | None => None end
  | _ => None
  end.
Definition chunks (s : obj) : option (list bytes) :=
  match s with OBytes b => Some [b] | ODict d => chunk_list d | _ => None end.

Lemma stream_string_chunks s l : chunks s = Some l -> stream_string s = Ok (List.concat l).
Proof.
  destruct s; try discriminate.
  - cbn [chunks stream_string]. revert l. induction d as [|[k v] d IH]; intros l H.
    + cbn in H. injection H as <-. reflexivity.
    + cbn [chunk_list] in H. destruct v; try discriminate.
      destruct (chunk_list d) as [l'|]; [|discriminate]. injection H as <-.
      cbn [join_values List.concat]. rewrite (IH l' eq_refl). reflexivity.
  - cbn. intros [= <-]. cbn. now rewrite app_nil_r.
Qed.

(** What is encoded with which filter setting. *)
Definition stored_payload (d : list (str * obj)) (raw : bytes) : option bytes :=
  match dget k_Filter d with
  | None => Some raw
  | Some f =>
      if match dget k_skip d with Some o => truthy o | None => false end then Some raw
      else match f with
           | OBytes fb => if str_eqb fb (lit "/FlateDecode") then Some (flate raw) else None
           | _ => None
           end
  end.

Lemma dget_dpop_other {V} k k2 (d : list (str * V)) : k2 <> k -> dget k2 (dpop k d) = dget k2 d.
Proof.
  intros H. induction d as [|[k' v'] d IH]; cbn [dpop dget]; [reflexivity|].
  destruct (str_eqb k k') eqn:E; cbn [dget].
  - apply str_eqb_eq in E; subst k'. apply str_eqb_neq in H. now rewrite H.
  - now rewrite IH.
Qed.

Theorem stream_readback d s l payload vs :
  NoDup (keys d) ->
  dget k_stream d = Some s -> chunks s = Some l ->
  stored_payload d (List.concat l) = Some payload ->
  denote_dict (ordinary d) = Some vs ->
  exists b o', parse_obj (ODict d) = (Ok b, o') /\
    exists dv, assoc k_Length dv = Some (VInt (Z.of_nat (List.length payload))) /\
      (forall k, k <> k_Length -> assoc k dv = assoc k vs) /\
      forall rest, reads_stream (b ++ rest) dv payload rest.
Proof.
  intros Hnd Hs Hc Hp Hd.
  rewrite parse_obj_eq. unfold dmem. rewrite Hs. unfold pstream. rewrite Hs. cbv zeta.
  rewrite (stream_string_chunks s l Hc).
  set (d2 := dpop k_skip (dpop k_stream d)).
  set (skip := match dget k_skip (dpop k_stream d) with Some o => truthy o | None => false end).
  assert (Henc : match dget k_Filter d2 with
            | Some f => if skip then @Ok bytes (List.concat l)
                        else encode_stream flate (List.concat l) f
            | None => @Ok bytes (List.concat l) end = Ok payload).
  { unfold d2. rewrite !dget_dpop_other by discriminate.
    unfold stored_payload in Hp. unfold skip. rewrite dget_dpop_other by discriminate.
    destruct (dget k_Filter d) as [f|]; [|injection Hp as <-; reflexivity].
    destruct (match dget k_skip d with Some o => truthy o | None => false end);
      [injection Hp as <-; reflexivity|].
    destruct f; try discriminate. unfold encode_stream.
    destruct (str_eqb b (lit "/FlateDecode")); [|discriminate].
    injection Hp as <-. reflexivity. }
  rewrite Henc.
  destruct (nodup_dpop k_stream d Hnd) as [Hnd1 _].
  destruct (nodup_dpop k_skip _ Hnd1) as [Hnd2 _]. fold d2 in Hnd2.
  rewrite <- filter_split in Hd by exact Hnd. fold d2 in Hd.
  destruct (denote_dset_length (Z.of_nat (List.length payload)) d2 vs Hnd2 Hd)
    as (dv & E1 & E2 & E3).
  destruct (written_dict flate (dset k_Length (OInt (Z.of_nat (List.length payload))) d2) dv)
    with (acc := lit "<<") as (body & F1 & F2 & _).
  - intros k o v _ Hv. eapply written_ok_all; [apply Nat.lt_succ_diag_r|exact Hv].
  - exact E1.
  - rewrite F1. eexists _, _. split; [reflexivity|]. exists dv. split; [exact E2|].
    split; [exact E3|]. intros rest.
    exists (lit "stream" ++ NL :: payload ++ NL :: lit "endstream" ++ rest).
    exists (payload ++ NL :: lit "endstream" ++ rest).
    exists (List.length payload). repeat split.
    + destruct (F2 (lit "stream" ++ NL :: payload ++ NL :: lit "endstream" ++ rest)) as [f Hf].
      exists (S f).
      replace ((((lit "<<" ++ body ++ lit ">>") ++
        lit "stream" ++ NL :: payload ++ NL :: lit "endstream") ++ rest))
        with (60 :: 60 :: body ++ lit ">>" ++ lit "stream" ++ NL :: payload ++ NL :: lit "endstream" ++ rest).
      2:{ rewrite <- !app_assoc. cbn [app]. rewrite <- !app_assoc. reflexivity. }
      cbn [read_obj].
      rewrite skip_ws_regular by (reflexivity || discriminate).
      change (60 =? 47) with false. change (60 =? 40) with false.
      change (60 =? 91) with false. change (60 =? 60) with true. cbv iota.
      rewrite Hf. reflexivity.
    + exact E2.
    + rewrite app_length. lia.
    + rewrite firstn_app, firstn_all, Nat.sub_diag. cbn [firstn]. now rewrite app_nil_r.
    + rewrite skipn_app, skipn_all, Nat.sub_diag. cbn [skipn app].
      change (NL :: lit "endstream" ++ rest) with ((NL :: lit "endstream") ++ rest).
      apply strip_app.
Qed.

(** ** Failure *)

(** No dictionary inside [o] is a stream. *)
Fixpoint no_stream (o : obj) : bool :=
  match o with
  | OObj _ v => no_stream v
  | ODict d => negb (dmem k_stream d) && forallb (fun kv => no_stream (snd kv)) d
  | OSeq l => forallb no_stream l
  | _ => true
  end.

Lemma pdict_same pv d : (forall k v, In (k, v) d -> snd (pv v) = v) ->
  forall acc, snd (pdict pv acc d) = d.
Proof.
  induction d as [|[k v] d IH]; intros H acc; cbn [pdict]; [reflexivity|].
  destruct (encode_latin k) as [b0|]; [|reflexivity].
  pose proof (H k v (or_introl eq_refl)) as Hv.
  destruct (pv v) as [r v']. cbn [snd] in Hv. subst v'.
  destruct r as [[|c b]|e]; try reflexivity.
  specialize (IH (fun k0 v0 Hin => H k0 v0 (or_intror Hin)) (acc ++ 47 :: b0 ++ 32 :: c :: b)).
  destruct (pdict pv _ d) as [r2 d2]. cbn [snd] in *. now rewrite IH.
Qed.

Lemma pseq_same pv l : (forall v, In v l -> snd (pv v) = v) ->
  forall first acc, snd (pseq pv first acc l) = l.
Proof.
  induction l as [|v l IH]; intros H first acc; cbn [pseq]; [reflexivity|].
  pose proof (H v (or_introl eq_refl)) as Hv.
  destruct (pv v) as [r v']. cbn [snd] in Hv. subst v'.
  destruct r as [[|c b]|e]; try reflexivity.
  specialize (IH (fun v0 Hin => H v0 (or_intror Hin)) false
    (acc ++ (if first then [] else [32]) ++ c :: b)).
  destruct (pseq pv _ _ l) as [r2 d2]. cbn [snd] in *. now rewrite IH.
Qed.

Theorem no_stream_unchanged : forall n o, (depth o < n)%nat -> no_stream o = true ->
  snd (parse_obj o) = o.
Proof.
  induction n as [|n IH]; intros o Hn Hs; [lia|].
  rewrite parse_obj_eq. destruct o; try reflexivity.
  - cbn [no_stream depth] in *. specialize (IH o ltac:(lia) Hs).
    destruct (parse_obj o) as [r v']. cbn [snd] in *. now rewrite IH.
  - cbn [no_stream] in Hs. apply andb_true_iff in Hs as [Hm Hv].
    apply negb_true_iff in Hm. rewrite Hm.
    cbn [depth] in Hn. change (fold_right _ _ d) with (dict_depth d) in Hn.
    pose proof (pdict_same parse_obj d) as Hp.
    specialize (Hp ltac:(intros k v Hin; apply IH; [apply depth_in_dict in Hin; lia|];
      rewrite forallb_forall in Hv; exact (Hv _ Hin)) (lit "<<")).
    destruct (pdict parse_obj (lit "<<") d) as [r d']. cbn [snd] in *. now rewrite Hp.
  - cbn [no_stream] in Hs.
    pose proof (pseq_same parse_obj l) as Hp.
    specialize (Hp ltac:(intros v Hin; apply IH; [apply depth_in_seq in Hin; lia|];
      rewrite forallb_forall in Hs; exact (Hs _ Hin)) true (lit "[")).
    destruct (pseq parse_obj true (lit "[") l) as [r d']. cbn [snd] in *. now rewrite Hp.
Qed.

End Twice.
