(** More proofs about the file writer, in the form the properties need. *)
From Verif Require Import Py PdfSyntax PdfFile Parser Denote ParserProofs StreamProofs Base BaseProofs.
From Coq Require Import String.
Open Scope N_scope.
Open Scope list_scope.

Lemma denote_dict_dset k v pv d vs :
  plain_name k = true -> denote v = Some pv -> denote_dict d = Some vs ->
  exists vs', denote_dict (dset k v d) = Some vs' /\ assoc k vs' = Some pv /\
    (forall k', k' <> k -> assoc k' vs' = assoc k' vs).
Proof.
  intros Hk Hv. revert vs. induction d as [|[k1 v1] d IH]; intros vs H; cbn [dset].
  - cbn in H. injection H as <-. exists [(k, pv)]. cbn [denote_dict]. rewrite Hk, Hv.
    repeat split; cbn [assoc].
    + now rewrite str_eqb_refl.
    + intros k' Hk'. apply str_eqb_neq in Hk'. now rewrite Hk'.
  - cbn [denote_dict] in H. destruct (plain_name k1) eqn:E1; [|discriminate].
    destruct (denote v1) as [pv1|] eqn:E2; [|discriminate].
    destruct (denote_dict d) as [vs1|] eqn:E3; [|discriminate]. injection H as <-.
    destruct (str_eqb k k1) eqn:E.
    + apply str_eqb_eq in E. subst k1. exists ((k, pv) :: vs1). cbn [denote_dict].
      rewrite E1, Hv, E3. repeat split; cbn [assoc].
      * now rewrite str_eqb_refl.
      * intros k' Hk'. apply str_eqb_neq in Hk'. now rewrite Hk'.
    + destruct (IH vs1 eq_refl) as (vs' & F1 & F2 & F3).
      exists ((k1, pv1) :: vs'). cbn [denote_dict]. rewrite E1, E2, F1. repeat split; cbn [assoc].
      * now rewrite E.
      * intros k' Hk'. destruct (str_eqb k' k1); [reflexivity|auto].
Qed.

Lemma dmem_dset k k' v (d : list (str * obj)) : k' <> k -> dmem k' (dset k v d) = dmem k' d.
Proof. intros H. unfold dmem. now rewrite dget_dset_other. Qed.

Lemma denote_hex u : forallb is_hex u = true ->
  denote (OBytes (60 :: u ++ [62])) = Some (VStr (hex_bytes u)).
Proof.
  intros H. cbn [denote denote_bytes]. rewrite removelast_last, H, str_eqb_refl. reflexivity.
Qed.

Lemma final_trailer_denote u1 u2 b tv :
  forallb is_hex u1 = true -> forallb is_hex u2 = true ->
  denote (ODict (b_trailer b)) = Some (VDict tv) ->
  exists dv, denote (ODict (final_trailer u1 u2 b)) = Some (VDict dv) /\
    assoc k_Size dv = Some (VInt (Z.of_N (b_count b))) /\
    (forall k, k <> k_Size -> k <> k_ID -> assoc k dv = assoc k tv).
Proof.
  intros H1 H2. rewrite denote_ODict. destruct (dmem k_stream (b_trailer b)) eqn:Em; [discriminate|].
  destruct (denote_dict (b_trailer b)) as [vs|] eqn:E; [|discriminate]. intros [= ->].
  destruct (denote_dict_dset k_Size (OInt (Z.of_N (b_count b))) (VInt (Z.of_N (b_count b)))
    (b_trailer b) tv eq_refl eq_refl E) as (v1 & E1 & E2 & E3).
  unfold final_trailer.
  destruct (dmem k_ID (dset k_Size (OInt (Z.of_N (b_count b))) (b_trailer b))) eqn:Ei.
  - exists v1. rewrite denote_ODict, dmem_dset, Em, E1 by discriminate. auto.
  - destruct (denote_dict_dset k_ID
      (OSeq [OBytes (60 :: u1 ++ [62]); OBytes (60 :: u2 ++ [62])])
      (VArr [VStr (hex_bytes u1); VStr (hex_bytes u2)]) _ v1 eq_refl
      ltac:(rewrite denote_OSeq; cbn [denote_seq]; rewrite !denote_hex by assumption; reflexivity)
      E1) as (v2 & F1 & F2 & F3).
    exists v2. rewrite denote_ODict, !dmem_dset, Em, F1 by discriminate. repeat split.
    + rewrite F3 by discriminate. exact E2.
    + intros k Hk Hk'. rewrite F3 by exact Hk'. auto.
Qed.

Lemma ok_rest_nl_letter c r : is_regular c = true -> is_digit c = false -> c <> 82 ->
  ok_rest (NL :: c :: r).
Proof.
  intros H1 H2 H3. split; [reflexivity|].
  assert (skip_ws false (NL :: c :: r) = c :: r) as Hs.
  { change (skip_ws false (NL :: c :: r)) with (skip_ws false (c :: r)).
    apply skip_ws_regular; [now apply regular_white|eapply regular_not; eauto]. }
  split.
  - unfold ref_tail. rewrite Hs. cbn [span]. rewrite H1.
    destruct (span is_regular r) as [a b]. unfold all_digits. cbn [nonempty forallb andb].
    rewrite H2. reflexivity.
  - unfold not_R. rewrite Hs. cbn [span]. rewrite H1.
    destruct (span is_regular r) as [a b]. cbn [fst]. intros [= H]. auto.
Qed.

Section P.
Variable flate : bytes -> bytes.

Lemma object_reads o v body o' more :
  denote o = Some v -> parse_obj flate o = (Ok body, o') ->
  reads (body ++ NL :: lit "endobj" ++ more) v (NL :: lit "endobj" ++ more).
Proof.
  intros Hd Hp.
  destruct (written_ok_all flate _ o v (Nat.lt_succ_diag_r _) Hd) as (b & E & _ & _ & Hr).
  rewrite E in Hp. injection Hp as <- <-. apply Hr.
  change (lit "endobj" ++ more) with (101 :: lit "ndobj" ++ more).
  apply ok_rest_nl_letter; (reflexivity || discriminate).
Qed.

Lemma dict_reads_any d dv body t' rest :
  denote (ODict d) = Some (VDict dv) -> parse_obj flate (ODict d) = (Ok body, t') ->
  reads (body ++ rest) (VDict dv) rest.
Proof.
  rewrite denote_ODict. destruct (dmem k_stream d) eqn:Es; [discriminate|].
  destruct (denote_dict d) as [vs|] eqn:E; [|discriminate]. intros [= ->].
  rewrite parse_obj_eq, Es.
  destruct (written_dict flate d dv) with (acc := lit "<<") as (b & E1 & E2 & _).
  - intros k o v _ Hv. eapply written_ok_all; [apply Nat.lt_succ_diag_r|exact Hv].
  - exact E.
  - rewrite E1. intros [= <- <-]. destruct (E2 rest) as [f Hf]. exists (S f).
    cbn [app read_obj]. rewrite skip_ws_regular by (reflexivity || discriminate).
    change (60 =? 47) with false. change (60 =? 40) with false.
    change (60 =? 91) with false. change (60 =? 60) with true. cbv iota.
    rewrite <- app_assoc. change ([62; 62] ++ rest) with (lit ">>" ++ rest). rewrite Hf. reflexivity.
Qed.

Lemma run_length ops : forall b,
  (List.length (b_content b) <= List.length (b_content (base_run flate b ops)))%nat.
Proof.
  induction ops as [|op ops IH]; intros b; [reflexivity|].
  change (base_run flate b (op :: ops)) with (base_run flate (base_step flate b op) ops).
  etransitivity; [|apply IH]. destruct op; cbn [base_step].
  - unfold base_add. destruct (allowed o); cbn [snd b_content]; [|reflexivity].
    rewrite app_length. lia.
  - unfold base_set. destruct (0 <? i)%Z; [|reflexivity].
    destruct py_index; cbn [snd b_content]; [|reflexivity].
    now rewrite list_set_length.
  - reflexivity.
  - destruct (output_len flate u1 u2 b) as [-> _]. reflexivity.
Qed.

Theorem C01_core b u1 u2 file b' :
  base_reachable flate b ->
  base_output flate u1 u2 b = (file, Ok tt, b') -> blen file < 10 ^ 10 ->
  exists table rest, xref_of file = Some (table, rest) /\
    List.length table = S (List.length (b_content b)) /\
    nth_error table 0 = Some (0, 65535, false) /\
    forall k o, nth_error (b_content b) k = Some o ->
      exists off body, nth_error table (S k) = Some (off, 0, true) /\
        fst (parse_obj flate o) = Ok body /\
        at_offset file off
          (dec (N.of_nat (S k)) ++ lit " 0 obj" ++ [NL] ++ body ++ NL :: lit "endobj" ++ [NL]).
Proof.
  intros Hr Ho Hl. apply reachable_inv in Hr.
  destruct (output_xref flate u1 u2 b file b' Hr Ho Hl) as (offs & rest & E1 & E2 & E3 & _).
  eexists _, rest. split; [exact E1|]. split; [cbn [List.length]; now rewrite map_length, E2|].
  split; [reflexivity|].
  intros k o Hk. destruct (E3 k o Hk) as (body & o' & off & F1 & F2 & F3).
  exists off, body. split; [|split].
  - cbn [nth_error]. rewrite nth_error_map, F2. reflexivity.
  - now rewrite F1.
  - replace (N.of_nat (S k)) with (1 + N.of_nat k) by lia. exact F3.
Qed.

Theorem C05_file_core b u1 u2 file b' :
  base_reachable flate b ->
  base_output flate u1 u2 b = (file, Ok tt, b') -> blen file < 10 ^ 10 ->
  exists table rest, xref_of file = Some (table, rest) /\
    forall k o v, nth_error (b_content b) k = Some o -> denote o = Some v ->
      exists off pre post more,
        nth_error table (S k) = Some (off, 0, true) /\
        file = pre ++ dec (N.of_nat (S k)) ++ lit " 0 obj" ++ NL :: post /\ blen pre = off /\
        reads post v (NL :: lit "endobj" ++ more).
Proof.
  intros Hr Ho Hl. destruct (C01_core b u1 u2 file b' Hr Ho Hl) as (table & rest & E1 & _ & _ & E).
  exists table, rest. split; [exact E1|]. intros k o v Hk Hv.
  destruct (E k o Hk) as (off & body & F1 & F2 & pre & post & F3 & F4).
  destruct (parse_obj flate o) as [r o'] eqn:Ep. cbn in F2. subst r.
  exists off, pre, (body ++ NL :: lit "endobj" ++ NL :: post), (NL :: post).
  split; [exact F1|]. split; [|split; [exact F4|]].
  - rewrite F3. napp. reflexivity.
  - eapply object_reads; eauto.
Qed.

Theorem C03_core b u1 u2 file b' tv :
  base_reachable flate b ->
  base_output flate u1 u2 b = (file, Ok tt, b') -> blen file < 10 ^ 10 ->
  forallb is_hex u1 = true -> forallb is_hex u2 = true ->
  denote (ODict (b_trailer b)) = Some (VDict tv) ->
  exists table rest dv tail,
    xref_of file = Some (table, rest) /\
    List.length table = S (List.length (b_content b)) /\
    (forall k e, nth_error table (S k) = Some e -> exists off, e = (off, 0, true)) /\
    exists rest', rest = lit "trailer" ++ NL :: rest' /\
    reads rest' (VDict dv) tail /\
    assoc (lit "Size") dv = Some (VInt (Z.of_nat (S (List.length (b_content b))))) /\
    (forall k, k <> lit "Size" -> k <> lit "ID" -> assoc k dv = assoc k tv).
Proof.
  intros Hr Ho Hl H1 H2 Ht. apply reachable_inv in Hr.
  destruct (output_xref flate u1 u2 b file b' Hr Ho Hl)
    as (offs & rest & E1 & E2 & _ & tb & t' & tail & E4 & E5).
  destruct (final_trailer_denote u1 u2 b tv H1 H2 Ht) as (dv & F1 & F2 & F3).
  eexists _, rest, dv, (NL :: tail). split; [exact E1|]. split; [|split].
  - cbn [List.length]. now rewrite map_length, E2.
  - intros k e Hk. cbn [nth_error] in Hk. apply nth_error_In in Hk.
    apply in_map_iff in Hk as (off & <- & _). eauto.
  - exists (tb ++ NL :: tail). split; [exact E5|]. split; [|split].
    + eapply dict_reads_any; eauto.
    + rewrite Hr in F2. etransitivity; [exact F2|]. do 2 f_equal. lia.
    + exact F3.
Qed.

Theorem C04_add_core b o r b' :
  base_reachable flate b -> base_add b o = (r, b') ->
  (o = ONone -> r = Err TypeError /\ b' = b) /\
  (o <> ONone ->
     r = Ok (OObj (N.of_nat (S (base_len b))) o) /\
     base_len b' = S (base_len b) /\
     base_get b' (Z.of_nat (S (base_len b))) = Ok (Some (OObj (N.of_nat (S (base_len b))) o)) /\
     (forall i, (i <= Z.of_nat (base_len b))%Z -> (0 <= i)%Z -> base_get b' i = base_get b i)).
Proof.
  intros Hr Ha. apply reachable_inv in Hr. unfold count_inv in Hr. unfold base_add in Ha. split.
  - intros ->. injection Ha as <- <-. auto.
  - intros Hn. assert (allowed o = true) as Hal by (destruct o; congruence || reflexivity).
    rewrite Hal in Ha. injection Ha as <- <-. unfold base_len. cbn [b_content].
    replace (b_count b) with (N.of_nat (S (List.length (b_content b)))) by lia.
    split; [reflexivity|]. split; [rewrite app_length; cbn; lia|]. split.
    + rewrite get_content. cbn [b_content].
      rewrite nth_error_app2, Nat.sub_diag by lia. reflexivity.
    + intros i Hi1 Hi2. destruct (Z.eq_dec i 0) as [->|Hne]; [reflexivity|].
      replace i with (Z.of_nat (S (Z.to_nat (i - 1)))) by lia.
      rewrite !get_content. cbn [b_content].
      rewrite nth_error_app1 by lia. reflexivity.
Qed.

Theorem C04_stable_core b o x b' ops :
  base_reachable flate b -> base_add b o = (Ok x, b') ->
  (forall v, ~ In (BSet (Z.of_nat (S (base_len b))) v) ops) ->
  (exists o', base_get (base_run flate b' ops) (Z.of_nat (S (base_len b))) =
     Ok (Some (OObj (N.of_nat (S (base_len b))) o'))) /\
  ((forall u1 u2, ~ In (BOut u1 u2) ops) ->
     base_get (base_run flate b' ops) (Z.of_nat (S (base_len b))) = Ok (Some x)) /\
  (forall o2 x2 b2, base_add (base_run flate b' ops) o2 = (Ok x2, b2) ->
     exists id2, x2 = OObj id2 o2 /\ N.of_nat (S (base_len b)) < id2).
Proof.
  intros Hr Ha Hns.
  assert (Ho : o <> ONone) by (intros ->; discriminate).
  destruct (C04_add_core b o (Ok x) b' Hr Ha) as [_ H].
  destruct (H Ho) as (Hx & Hlen & _ & _). injection Hx as ->.
  assert (Hk : nth_error (b_content b') (base_len b) = Some (OObj (N.of_nat (S (base_len b))) o)).
  { unfold base_add in Ha. destruct (allowed o); [|discriminate]. injection Ha as Ha <-.
    cbn [b_content]. unfold base_len. rewrite nth_error_app2, Nat.sub_diag by lia. cbn.
    rewrite Ha. reflexivity. }
  destruct (run_keeps flate ops b' (base_len b) _ Hns Hk) as [K1 K2].
  split; [|split].
  - destruct (K2 _ _ eq_refl) as [v' Hv']. exists v'. rewrite get_content, Hv'. reflexivity.
  - intros Hno. rewrite get_content, (K1 Hno). reflexivity.
  - intros o2 x2 b2 H2.
    assert (Hr2 : count_inv (base_run flate b' ops)).
    { apply run_inv. apply reachable_inv in Hr.
      replace b' with (base_step flate b (BAdd o)) by (cbn [base_step]; rewrite Ha; reflexivity).
      now apply step_inv. }
    unfold count_inv in Hr2. unfold base_add in H2.
    destruct (allowed o2); [|discriminate]. injection H2 as <- <-.
    eexists. split; [reflexivity|]. rewrite Hr2.
    pose proof (run_length ops b') as Hm. unfold base_len in *. lia.
Qed.

Theorem C06_partial_core s more :
  forallb (fun c => (c <? 256) && negb (c =? 92) && negb (c =? 13)) s = true ->
  exists body, parse_obj flate (OStr s) = (Ok body, OStr s) /\
    reads (body ++ NL :: lit "endobj" ++ more) (VStr s) (NL :: lit "endobj" ++ more).
Proof.
  intros H. assert (denote (OStr s) = Some (VStr s)) as Hd.
  { cbn [denote]. unfold plain_text. now rewrite H. }
  destruct (written_ok_all flate _ _ _ (Nat.lt_succ_diag_r _) Hd) as (b & E & _).
  exists b. split; [exact E|]. eapply object_reads; eauto.
Qed.

Theorem C05_core o v : denote o = Some v ->
  exists body, parse_obj flate o = (Ok body, o) /\
    forall rest,
      (* what follows is not glued to the object and does not turn an integer
         into a reference *)
      match rest with [] => True | c :: _ => is_regular c = false end ->
      ref_tail rest = None -> fst (span is_regular (skip_ws false rest)) <> lit "R" ->
      reads (body ++ rest) v rest.
Proof.
  intros Hd. destruct (written_ok_all flate _ o v (Nat.lt_succ_diag_r _) Hd) as (b & E & _ & _ & Hr).
  exists b. split; [exact E|]. intros rest H1 H2 H3. apply Hr. split; [exact H1|]. split; assumption.
Qed.

End P.
