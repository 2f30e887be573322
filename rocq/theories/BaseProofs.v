(** Proofs about the file writer. *)
From Verif Require Import Py PdfSyntax PdfFile Parser Denote ParserProofs StreamProofs Base.
From Coq Require Import String.
Open Scope N_scope.
Open Scope list_scope.

Ltac napp := repeat first [rewrite <- app_assoc | progress (cbn [app])].

(** ** Reading the tail of the file *)

Lemma forallb_rev {A} (p : A -> bool) l : forallb p l = true -> forallb p (rev l) = true.
Proof.
  rewrite !forallb_forall. intros H x Hx. apply H. now apply in_rev.
Qed.

Lemma startxref_of_app X n :
  startxref_of (X ++ NL :: lit "startxref" ++ NL :: dec n ++ NL :: lit "%%EOF") = Some n.
Proof.
  replace (X ++ NL :: lit "startxref" ++ NL :: dec n ++ NL :: lit "%%EOF")
    with (X ++ (NL :: lit "startxref" ++ [NL]) ++ dec n ++ (NL :: lit "%%EOF"))
    by (cbn [app]; rewrite <- !app_assoc; reflexivity).
  unfold startxref_of. rewrite !rev_app_distr, <- !app_assoc.
  rewrite strip_app.
  rewrite span_app_all; [|apply forallb_rev, dec_digits|reflexivity].
  rewrite strip_app.
  pose proof (dec_nonempty n) as Hne.
  destruct (rev (dec n)) as [|d r] eqn:E.
  - exfalso. apply Hne. rewrite <- (rev_involutive (dec n)), E. reflexivity.
  - rewrite <- E, rev_involutive, dec_val. reflexivity.
Qed.

Lemma read_entry_ok off rest : off < 10 ^ 10 ->
  read_entry (xref_entry off ++ rest) = Some (off, 0, true, rest).
Proof.
  intros H. unfold xref_entry. rewrite <- !app_assoc.
  assert (Hl : List.length (zfill 10 (dec off)) = 10%nat).
  { apply zfill_len. apply dec_len; [exact H|lia]. }
  assert (Hd : forallb is_digit (zfill 10 (dec off)) = true) by apply zfill_digits, dec_digits.
  assert (Hv : val10 (zfill 10 (dec off)) = off) by (rewrite zfill_val; apply dec_val).
  destruct (zfill 10 (dec off)) as [|d0 [|d1 [|d2 [|d3 [|d4 [|d5 [|d6 [|d7 [|d8 [|d9 [|d10 z]]]]]]]]]]];
    try discriminate Hl.
  cbn [app]. change (lit " 00000 n " ++ [NL] ++ rest)
    with (32 :: 48 :: 48 :: 48 :: 48 :: 48 :: 32 :: 110 :: 32 :: 10 :: rest).
  unfold read_entry.
  cbn [firstn skipn List.length Nat.leb].
  rewrite Hd, Hv. reflexivity.
Qed.

Lemma read_free_ok rest :
  read_entry (lit "0000000000 65535 f " ++ [NL] ++ rest) = Some (0, 65535, false, rest).
Proof. reflexivity. Qed.

Lemma read_entries_ok offs rest : (forall o, In o offs -> o < 10 ^ 10) ->
  read_entries (List.length offs) (List.concat (map xref_entry offs) ++ rest) =
  Some (map (fun o => (o, 0, true)) offs, rest).
Proof.
  induction offs as [|o offs IH]; intros H; [reflexivity|].
  cbn [map List.concat List.length read_entries]. rewrite <- app_assoc.
  rewrite read_entry_ok by (apply H; left; reflexivity).
  rewrite IH by (intros x Hx; apply H; now right). reflexivity.
Qed.

(** ** The loop over the objects *)

Section Out.
Variable flate : bytes -> bytes.

Lemma out_objs_ok content : forall i count w xr c content',
  out_objs flate i count content = (w, xr, c, content', Ok tt) ->
  exists offs,
    xr = List.concat (map xref_entry offs) /\
    List.length offs = List.length content /\
    List.length content' = List.length content /\
    c = count + blen w /\
    (forall o, In o offs -> count <= o <= c) /\
    (forall k o, nth_error content k = Some o ->
       exists body o' pre post,
         parse_obj flate o = (Ok body, o') /\
         nth_error content' k = Some o' /\
         w = pre ++ indirect (i + N.of_nat k) body ++ post /\
         nth_error offs k = Some (count + blen pre)).
Proof.
  induction content as [|o content IH]; intros i count w xr c content' H; cbn [out_objs] in H.
  - injection H as <- <- <- <-. exists []. repeat split; try contradiction.
    + unfold blen; cbn; lia.
    + intros [|k] o Ho; discriminate.
  - destruct (parse_obj flate o) as [[body|e] o'] eqn:Ep; [|discriminate].
    destruct (out_objs flate (i + 1) (count + blen (indirect i body)) content)
      as [[[[w2 xr2] c2] r2] res2] eqn:E2.
    injection H as <- <- <- <- ->.
    destruct (IH _ _ _ _ _ _ E2) as (offs & E3 & E4 & E5 & E6 & E7 & E8).
    exists (count :: offs). repeat split.
    + cbn [map List.concat]. now rewrite E3.
    + cbn [List.length]. now rewrite E4.
    + cbn [List.length]. now rewrite E5.
    + rewrite E6, blen_app. lia.
    + destruct H as [<-|H]; [lia|]. apply E7 in H. lia.
    + destruct H as [<-|H]; [rewrite E6; lia|]. apply E7 in H. lia.
    + intros [|k] o1 Ho; cbn [nth_error] in Ho.
      * injection Ho as <-. exists body, o', [], w2. repeat split.
        -- exact Ep.
        -- cbn [app N.of_nat]. rewrite N.add_0_r. reflexivity.
        -- cbn [nth_error]. f_equal. unfold blen; cbn [List.length]. lia.
      * destruct (E8 k o1 Ho) as (body1 & o1' & pre & post & F1 & F2 & F3 & F4).
        exists body1, o1', (indirect i body ++ pre), post. repeat split; auto.
        -- rewrite F3, <- app_assoc. do 2 f_equal.
           replace (i + N.of_nat (S k)) with (i + 1 + N.of_nat k) by lia. reflexivity.
        -- cbn [nth_error]. rewrite F4. f_equal. rewrite blen_app. lia.
Qed.

(** ** Reachable states *)

Lemma out_objs_len content : forall i count w xr c content' r,
  out_objs flate i count content = (w, xr, c, content', r) ->
  List.length content' = List.length content.
Proof.
  induction content as [|o content IH]; intros i count w xr c content' r H; cbn [out_objs] in H.
  - injection H as <- <- <- <- <-. reflexivity.
  - destruct (parse_obj flate o) as [[body|e] o'] eqn:Ep.
    + destruct (out_objs flate (i + 1) (count + blen (indirect i body)) content)
        as [[[[w2 xr2] c2] r2] res2] eqn:E2.
      injection H as <- <- <- <- <-. cbn [List.length]. f_equal. eauto.
    + injection H as <- <- <- <- <-. reflexivity.
Qed.

Lemma list_set_length {A} j (v : A) l : List.length (list_set j v l) = List.length l.
Proof. revert j; induction l as [|x l IH]; intros [|j]; cbn; auto. Qed.

Lemma nth_list_set_same {A} j (v : A) l : (j < List.length l)%nat ->
  nth_error (list_set j v l) j = Some v.
Proof.
  revert j; induction l as [|x l IH]; intros [|j] H; cbn in *; try lia; auto.
  apply IH. lia.
Qed.

Lemma nth_list_set_other {A} j j' (v : A) l : j <> j' ->
  nth_error (list_set j v l) j' = nth_error l j'.
Proof.
  revert j j'; induction l as [|x l IH]; intros [|j] [|j'] H; cbn; try congruence.
  apply IH. congruence.
Qed.

Definition count_inv (b : base) : Prop := b_count b = 1 + N.of_nat (List.length (b_content b)).

Lemma output_len u1 u2 b :
  List.length (b_content (snd (base_output flate u1 u2 b))) = List.length (b_content b) /\
  b_count (snd (base_output flate u1 u2 b)) = b_count b.
Proof.
  unfold base_output. destruct (encode_latin _) as [h|e]; [|split; reflexivity].
  destruct (out_objs flate 1 (blen h) (b_content b)) as [[[[w xr] c] content'] r] eqn:E.
  apply out_objs_len in E. destruct r; [|split; [exact E|reflexivity]].
  destruct (parse_obj flate (ODict (final_trailer u1 u2 b))) as [[t|e] t'];
    (split; [exact E|reflexivity]).
Qed.

Lemma step_inv b op : count_inv b -> count_inv (base_step flate b op).
Proof.
  unfold count_inv. intros H. destruct op; cbn [base_step].
  - unfold base_add. destruct (allowed o); cbn [snd b_count b_content]; [|exact H].
    rewrite app_length. cbn [List.length]. lia.
  - unfold base_set. destruct (0 <? i)%Z; [|exact H].
    destruct py_index; cbn [snd b_count b_content]; [|exact H].
    now rewrite list_set_length.
  - exact H.
  - destruct (output_len u1 u2 b) as [-> ->]. exact H.
Qed.

Lemma run_inv ops : forall b, count_inv b -> count_inv (base_run flate b ops).
Proof.
  induction ops as [|op ops IH]; intros b H; [exact H|].
  apply IH. now apply step_inv.
Qed.

Lemma reachable_inv b : base_reachable flate b -> count_inv b.
Proof.
  intros (v & t & b0 & ops & Hi & ->). apply run_inv.
  unfold base_init in Hi. destruct t as [[]|]; try discriminate; injection Hi as <-; reflexivity.
Qed.

(** ** The cross-reference table *)

Theorem output_xref u1 u2 b file b' :
  count_inv b -> base_output flate u1 u2 b = (file, Ok tt, b') ->
  blen file < 10 ^ 10 ->
  exists offs rest,
    xref_of file = Some ((0, 65535, false) :: map (fun o => (o, 0, true)) offs, rest) /\
    List.length offs = List.length (b_content b) /\
    (forall k o, nth_error (b_content b) k = Some o ->
       exists body o' off,
         parse_obj flate o = (Ok body, o') /\
         nth_error offs k = Some off /\
         at_offset file off (indirect (1 + N.of_nat k) body)) /\
    exists tb t' tail, parse_obj flate (ODict (final_trailer u1 u2 b)) = (Ok tb, t') /\
      rest = lit "trailer" ++ NL :: tb ++ NL :: tail.
Proof.
  intros Hinv. unfold base_output.
  destruct (encode_latin (header_text (b_version b))) as [h|e]; [|discriminate].
  destruct (out_objs flate 1 (blen h) (b_content b)) as [[[[w xr] c] content'] r] eqn:Eo.
  destruct r as [[]|e]; [|discriminate].
  destruct (parse_obj flate (ODict (final_trailer u1 u2 b))) as [[tb|e] t'] eqn:Et; [|discriminate].
  intros [= Hf Hb'] Hlen.
  destruct (out_objs_ok _ _ _ _ _ _ _ Eo) as (offs & E1 & E2 & E3 & E4 & E5 & E6).
  set (tail := lit "startxref" ++ NL :: dec (c + 1) ++ NL :: lit "%%EOF").
  assert (Hfile : file = (h ++ w ++ [NL]) ++
     (lit "xref" ++ NL :: lit "0 ") ++ dec (b_count b) ++ [NL] ++
     (lit "0000000000 65535 f " ++ [NL]) ++ xr ++ (lit "trailer" ++ NL :: tb ++ NL :: tail)).
  { rewrite <- Hf. unfold xref_head, tail. napp. reflexivity. }
  exists offs, (lit "trailer" ++ NL :: tb ++ NL :: tail).
  split; [|split; [exact E2|split]].
  - assert (Hsx : startxref_of file = Some (c + 1)).
    { rewrite <- Hf.
      etransitivity; [|apply (startxref_of_app
        ((h ++ w ++ xref_head (b_count b) ++ xr ++ lit "trailer") ++ NL :: tb) (c + 1))].
      f_equal. unfold xref_head. napp. reflexivity. }
    unfold xref_of. rewrite Hsx.
    assert (Hskip : skipn (N.to_nat (c + 1)) file =
      (lit "xref" ++ NL :: lit "0 ") ++ dec (b_count b) ++ [NL] ++
     (lit "0000000000 65535 f " ++ [NL]) ++ xr ++ (lit "trailer" ++ NL :: tb ++ NL :: tail)).
    { rewrite Hfile. replace (N.to_nat (c + 1)) with (List.length (h ++ w ++ [NL])).
      - rewrite skipn_app, skipn_all, Nat.sub_diag. reflexivity.
      - rewrite E4, !app_length. unfold blen. cbn [List.length]. lia. }
    rewrite Hskip, strip_app.
    rewrite span_app_all; [|apply dec_digits|reflexivity].
    rewrite strip_app.
    destruct (dec_cons (b_count b)) as (d & r & Ed & _). rewrite Ed. rewrite <- Ed, dec_val.
    rewrite Hinv. replace (N.to_nat (1 + N.of_nat (List.length (b_content b))))
      with (S (List.length offs)) by (rewrite E2; lia).
    cbn [read_entries]. rewrite <- app_assoc, read_free_ok.
    rewrite E1, read_entries_ok; [reflexivity|].
    intros o Ho. apply E5 in Ho.
    assert (c <= blen file).
    { rewrite Hfile, E4, !blen_app. lia. }
    lia.
  - intros k o Ho. destruct (E6 k o Ho) as (body & o' & pre & post & F1 & F2 & F3 & F4).
    exists body, o', (blen h + blen pre). split; [exact F1|]. split; [exact F4|].
    exists (h ++ pre). eexists. split.
    + rewrite Hfile, F3, <- !app_assoc. reflexivity.
    + fold (blen (h ++ pre)). apply blen_app.
  - exists tb, t', tail. split; [reflexivity|]. reflexivity.
Qed.

Theorem output_startxref u1 u2 b file b' :
  base_output flate u1 u2 b = (file, Ok tt, b') ->
  exists off, startxref_of file = Some off /\
    at_offset file off (lit "xref" ++ NL :: lit "0 " ++ dec (b_count b) ++ [NL]).
Proof.
  unfold base_output.
  destruct (encode_latin (header_text (b_version b))) as [h|e]; [|discriminate].
  destruct (out_objs flate 1 (blen h) (b_content b)) as [[[[w xr] c] content'] r] eqn:Eo.
  destruct r as [[]|e]; [|discriminate].
  destruct (parse_obj flate (ODict (final_trailer u1 u2 b))) as [[tb|e] t'] eqn:Et; [|discriminate].
  intros [= Hf Hb'].
  destruct (out_objs_ok _ _ _ _ _ _ _ Eo) as (offs & E1 & E2 & E3 & E4 & E5 & E6).
  exists (c + 1). split.
  - rewrite <- Hf. 
    etransitivity; [|apply (startxref_of_app
        ((h ++ w ++ xref_head (b_count b) ++ xr ++ lit "trailer") ++ NL :: tb) (c + 1))].
    f_equal. unfold xref_head. napp. reflexivity.
  - exists (h ++ w ++ [NL]). eexists. split.
    + rewrite <- Hf. unfold xref_head. napp. reflexivity.
    + rewrite E4, !app_length. unfold blen. cbn [List.length]. lia.
Qed.

(** ** Writing twice *)

Definition base_wf (b : base) : Prop :=
  (forall o, In o (b_content b) -> wf o) /\ wf (ODict (b_trailer b)).

Lemma out_objs_again content : forall i count w xr c content',
  (forall o, In o content -> wf o) ->
  out_objs flate i count content = (w, xr, c, content', Ok tt) ->
  out_objs flate i count content' = (w, xr, c, content', Ok tt) /\
  (forall o, In o content' -> wf o).
Proof.
  induction content as [|o content IH]; intros i count w xr c content' Hwf H; cbn [out_objs] in H.
  - injection H as <- <- <- <-. split; [reflexivity|]. intros o [].
  - destruct (parse_obj flate o) as [[body|e] o'] eqn:Ep; [|discriminate].
    destruct (out_objs flate (i + 1) (count + blen (indirect i body)) content)
      as [[[[w2 xr2] c2] r2] res2] eqn:E2.
    injection H as <- <- <- <- ->.
    destruct (IH _ _ _ _ _ _ (fun x Hx => Hwf x (or_intror Hx)) E2) as [E3 E4].
    destruct (parse_twice flate o body o' (Hwf o (or_introl eq_refl)) Ep) as [E5 E6].
    cbn [out_objs]. rewrite E5, E3. split; [reflexivity|].
    intros x [<-|Hx]; auto.
Qed.

Lemma parse_dict_shape d b t : parse_obj flate (ODict d) = (b, t) -> exists d', t = ODict d'.
Proof.
  rewrite parse_obj_eq.
  destruct (if dmem k_stream d then _ else _) as [r d']. intros [= _ <-]. eauto.
Qed.

Lemma stream_trailer_stays d b d' : parse_obj flate (ODict d) = (Ok b, ODict d') ->
  forall k, special k = false ->
  (dget k d = None -> dget k d' = None) /\
  (forall v, dget k d = Some v -> exists r v', parse_obj flate v = (Ok r, v') /\ dget k d' = Some v').
Proof.
  rewrite parse_obj_eq. intros H k Hk.
  unfold special in Hk. apply orb_false_iff in Hk as [Hk H3]. apply orb_false_iff in Hk as [H1 H2].
  apply str_eqb_neq in H1, H2, H3.
  destruct (dmem k_stream d).
  - destruct (pstream flate (parse_obj flate) d) as [r dd] eqn:E. injection H as -> <-.
    unfold pstream in E. destruct (dget k_stream d) as [s|]; [|discriminate]. cbv zeta in E.
    destruct (stream_string s) as [ss|]; [|discriminate].
    destruct (match dget k_Filter _ with Some _ => _ | None => _ end) as [st|]; [|discriminate].
    destruct (pdict (parse_obj flate) (lit "<<") _) as [r d4] eqn:Ed.
    destruct r as [db|]; [|discriminate].
    injection E as <- <-.
    pose proof (pdict_dget _ _ _ _ _ Ed k) as Hg.
    rewrite dget_dset_other, !dget_dpop_other in Hg by assumption.
    assert (dget k (if match dget k_skip (dpop k_stream d) with
                       | Some o => truthy o | None => false end
                    then dset k_skip (OBool true) (dset k_stream s d4)
                    else dset k_stream s d4) = dget k d4) as ->.
    { destruct (match dget k_skip (dpop k_stream d) with Some o => truthy o | None => false end);
        rewrite !dget_dset_other by assumption; reflexivity. }
    destruct (dget k d) as [v|].
    + split; [discriminate|]. intros v0 [= <-]. destruct Hg as (r & Hr & Hne).
      destruct (dget k d4) as [v'|]; [|congruence]. eauto.
    + split; [auto|discriminate].
  - destruct (pdict (parse_obj flate) (lit "<<") d) as [r dd] eqn:E. injection H as -> <-.
    pose proof (pdict_dget _ _ _ _ _ E k) as Hg.
    destruct (dget k d) as [v|].
    + split; [discriminate|]. intros v0 [= <-]. destruct Hg as (r & Hr & Hne).
      destruct (dget k dd) as [v'|]; [|congruence]. eauto.
    + split; [auto|discriminate].
Qed.

Lemma dset_wf k v d : wf v -> wf (ODict d) -> wf (ODict (dset k v d)).
Proof.
  intros Hv Hd. inversion Hd as [| |? H1 H2| | | | | | |]; subst. constructor.
  - apply nodup_dset, H1.
  - intros k0 v0 Hin. apply in_dset in Hin as [H|Hin]; [cbn in H; subst; exact Hv|eauto].
Qed.

Lemma final_trailer_wf u1 u2 b : wf (ODict (b_trailer b)) -> wf (ODict (final_trailer u1 u2 b)).
Proof.
  intros H. unfold final_trailer.
  assert (wf (ODict (dset k_Size (OInt (Z.of_N (b_count b))) (b_trailer b)))) as H1
    by (apply dset_wf; [constructor|exact H]).
  destruct (dmem _ _); [exact H1|]. apply dset_wf; [|exact H1].
  constructor. intros v [<-|[<-|[]]]; constructor.
Qed.

Theorem output_twice u1 u2 u3 u4 b file b' :
  base_wf b -> base_output flate u1 u2 b = (file, Ok tt, b') ->
  base_output flate u3 u4 b' = (file, Ok tt, b') /\ base_wf b'.
Proof.
  intros [Hwf Hwt]. unfold base_output at 1.
  destruct (encode_latin (header_text (b_version b))) as [h|e] eqn:Eh; [|discriminate].
  destruct (out_objs flate 1 (blen h) (b_content b)) as [[[[w xr] c] content'] r] eqn:Eo.
  destruct r as [[]|e]; [|discriminate].
  destruct (parse_obj flate (ODict (final_trailer u1 u2 b))) as [[tb|e] t'] eqn:Et; [|discriminate].
  intros [= Hf Hb'].
  destruct (out_objs_again _ _ _ _ _ _ _ Hwf Eo) as [Eo' Hwf'].
  destruct (parse_dict_shape _ _ _ Et) as [d' ->].
  destruct (parse_twice flate _ _ _ (final_trailer_wf u1 u2 b Hwt) Et) as [Et' Hwt'].
  assert (Hft : final_trailer u3 u4 b' = d').
  { rewrite <- Hb'. unfold final_trailer. cbn [b_count b_trailer].
    assert (dget k_Size d' = Some (OInt (Z.of_N (b_count b)))) as Hs.
    { destruct (stream_trailer_stays _ _ _ Et k_Size eq_refl) as [_ H].
      destruct (H (OInt (Z.of_N (b_count b)))) as (r & v' & Hp & Hg).
      - unfold final_trailer. destruct (dmem _ _).
        + apply dget_dset_same.
        + rewrite dget_dset_other by discriminate. apply dget_dset_same.
      - rewrite parse_obj_eq in Hp. injection Hp as _ <-. exact Hg. }
    rewrite dset_same_value by exact Hs.
    assert (dmem k_ID d' = true) as ->; [|reflexivity].
    unfold dmem. destruct (stream_trailer_stays _ _ _ Et k_ID eq_refl) as [_ H].
    assert (exists v, dget k_ID (final_trailer u1 u2 b) = Some v) as [v Hv].
    { unfold final_trailer.
      destruct (dmem k_ID (dset k_Size (OInt (Z.of_N (b_count b))) (b_trailer b))) eqn:E.
      - unfold dmem in E.
        destruct (dget k_ID (dset k_Size (OInt (Z.of_N (b_count b))) (b_trailer b))); [eauto|discriminate].
      - eexists. apply dget_dset_same. }
    destruct (H v Hv) as (r & v' & _ & ->). reflexivity. }
  split.
  - unfold base_output. rewrite Hft. rewrite <- Hb'. cbn [b_version b_content b_count b_trailer].
    rewrite Eh, Eo', Et'. rewrite <- Hf. reflexivity.
  - rewrite <- Hb'. split; [exact Hwf'|exact Hwt'].
Qed.

(** ** Identifiers *)

Lemma get_content b k : base_get b (Z.of_nat (S k)) =
  match nth_error (b_content b) k with Some o => Ok (Some o) | None => Err IndexError end.
Proof.
  unfold base_get. destruct (Z.of_nat (S k) =? 0)%Z eqn:E; [lia|].
  unfold py_index. destruct (Z.of_nat (S k) - 1 <? 0)%Z eqn:E1; [lia|].
  replace (Z.of_nat (S k) - 1)%Z with (Z.of_nat k) by lia.
  destruct (nth_error (b_content b) k) as [o|] eqn:En.
  - assert (k < List.length (b_content b))%nat as Hk by (apply nth_error_Some; congruence).
    destruct ((0 <=? Z.of_nat k)%Z && (Z.of_nat k <? Z.of_nat (List.length (b_content b)))%Z) eqn:E2.
    + rewrite Nat2Z.id, En. reflexivity.
    + lia.
  - apply nth_error_None in En.
    destruct ((0 <=? Z.of_nat k)%Z && (Z.of_nat k <? Z.of_nat (List.length (b_content b)))%Z) eqn:E2;
      [lia|reflexivity].
Qed.

Lemma parse_keeps_wrapper id v : exists v', snd (parse_obj flate (OObj id v)) = OObj id v'.
Proof. rewrite parse_obj_eq. destruct (parse_obj flate v) as [r v']. exists v'. reflexivity. Qed.

Lemma out_objs_wrapper content : forall i count w xr c content' r k id v,
  out_objs flate i count content = (w, xr, c, content', r) ->
  nth_error content k = Some (OObj id v) ->
  exists v', nth_error content' k = Some (OObj id v').
Proof.
  induction content as [|o content IH]; intros i count w xr c content' r k id v H Hk; cbn [out_objs] in H.
  - destruct k; discriminate.
  - destruct (parse_obj flate o) as [[body|e] o'] eqn:Ep.
    + destruct (out_objs flate (i + 1) (count + blen (indirect i body)) content)
        as [[[[w2 xr2] c2] r2] res2] eqn:E2.
      injection H as <- <- <- <- <-. destruct k as [|k]; cbn [nth_error] in *.
      * injection Hk as ->. destruct (parse_keeps_wrapper id v) as [v' Hv].
        rewrite Ep in Hv. cbn in Hv. subst. eauto.
      * eauto.
    + injection H as <- <- <- <- <-. destruct k as [|k]; cbn [nth_error] in *.
      * injection Hk as ->. destruct (parse_keeps_wrapper id v) as [v' Hv].
        rewrite Ep in Hv. cbn in Hv. subst. eauto.
      * eauto.
Qed.

Definition not_set (id : Z) (ops : list base_op) : Prop :=
  forall o, ~ In (BSet id o) ops.
Definition not_out (ops : list base_op) : Prop :=
  forall u1 u2, ~ In (BOut u1 u2) ops.

Lemma step_keeps b op k x : not_set (Z.of_nat (S k)) [op] ->
  nth_error (b_content b) k = Some x ->
  (not_out [op] -> nth_error (b_content (base_step flate b op)) k = Some x) /\
  (forall id v, x = OObj id v ->
     exists v', nth_error (b_content (base_step flate b op)) k = Some (OObj id v')).
Proof.
  intros Hns Hk.
  assert (k < List.length (b_content b))%nat as Hlt by (apply nth_error_Some; congruence).
  destruct op; cbn [base_step].
  - assert (nth_error (b_content (snd (base_add b o))) k = Some x) as H.
    { unfold base_add. destruct (allowed o); cbn [snd b_content]; [|exact Hk].
      rewrite nth_error_app1; assumption. }
    split; [auto|]. intros id v ->; eauto.
  - assert (nth_error (b_content (snd (base_set b i o))) k = Some x) as H.
    { unfold base_set. destruct (0 <? i)%Z eqn:E; [|exact Hk].
      destruct (py_index (List.length (b_content b)) (i - 1)) as [j|] eqn:Ej; [|exact Hk].
      cbn [snd b_content]. rewrite nth_list_set_other; [exact Hk|]. intros ->.
      apply (Hns o). left. f_equal. unfold py_index in Ej.
      destruct (i - 1 <? 0)%Z eqn:E1; [lia|].
      destruct ((0 <=? i - 1)%Z && (i - 1 <? Z.of_nat (List.length (b_content b)))%Z) eqn:E2; [|discriminate].
      injection Ej as Ej. lia. }
    split; [auto|]. intros id v ->; eauto.
  - split; [auto|]. intros id v ->; eauto.
  - split; [intros Hno; exfalso; apply (Hno u1 u2); now left|].
    intros id v ->. unfold base_output. destruct (encode_latin _) as [h|e]; [|eauto].
    destruct (out_objs flate 1 (blen h) (b_content b)) as [[[[w xr] c] content'] r] eqn:E.
    destruct (out_objs_wrapper _ _ _ _ _ _ _ _ _ _ _ E Hk) as [v' Hv'].
    destruct r; [|eauto].
    destruct (parse_obj flate (ODict (final_trailer u1 u2 b))) as [[t|e] t']; eauto.
Qed.

Theorem run_keeps ops : forall b k x, not_set (Z.of_nat (S k)) ops ->
  nth_error (b_content b) k = Some x ->
  (not_out ops -> nth_error (b_content (base_run flate b ops)) k = Some x) /\
  (forall id v, x = OObj id v ->
     exists v', nth_error (b_content (base_run flate b ops)) k = Some (OObj id v')).
Proof.
  induction ops as [|op ops IH]; intros b k x Hns Hk.
  - split; [auto|]. intros id v ->. exists v. exact Hk.
  - change (base_run flate b (op :: ops)) with (base_run flate (base_step flate b op) ops).
    destruct (step_keeps b op k x) as [H1 H2].
    { intros o [H|[]]. apply (Hns o). now left. }
    { exact Hk. }
    assert (Hns' : not_set (Z.of_nat (S k)) ops) by (intros o H; apply (Hns o); now right).
    split.
    + intros Hno. apply (IH (base_step flate b op) k x); [exact Hns'| |].
      * apply H1. intros u v [H|[]]. apply (Hno u v). now left.
      * intros u v H. apply (Hno u v). now right.
    + intros id v ->. destruct (H2 id v eq_refl) as [v' Hv'].
      destruct (IH (base_step flate b op) k _ Hns' Hv') as [_ H3]. apply (H3 id v'). reflexivity.
Qed.

End Out.
