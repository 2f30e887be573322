(** Properties C01-C09: object serialization and the file structure.
    Specifications used: PdfSyntax.v (object reader), PdfFile.v (xref reader),
    Denote.v (intended PDF value of a python object). *)
From Verif Require Import Py PdfSyntax PdfFile Parser Denote StreamProofs Base
  BaseProofs BaseProofs2.
From Coq Require Import String.
Open Scope N_scope.
Open Scope list_scope.

(** A small document used to show that hypotheses are satisfiable: a catalog
    with nested values, a list, and a compressed stream given in chunks. *)
Definition ex_flate (b : bytes) : bytes := 120 :: rev b.
Definition ex_dict : obj :=
  ODict [(lit "Type", OBytes (lit "/Catalog")); (lit "Pages", ORef 2);
         (lit "T", OStr (lit "a(b)c")); (lit "K", OSeq [OInt 1; OInt 0; ORef 3; OBool true;
           OFloat (lit "-0.5"); ODict [(lit "X", OInt (-7))]])].
Definition ex_stream : obj :=
  ODict [(k_stream, ODict [(lit "0", OBytes (lit "q ")); (lit "1", OBytes (lit "Q"))]);
         (lit "Length", OInt 99); (lit "Filter", OBytes (lit "/FlateDecode"))].
Definition ex_ops : list base_op := [BAdd ex_dict; BAdd ONone; BAdd ex_stream; BGet 1;
  BAdd (OStr (lit "x")); BSet 3 (OInt 12)].
Definition ex_base : base := base_run ex_flate (mkBase (lit "1.5") [] [] 1) ex_ops.
Definition ex_u : bytes := lit "00112233445566778899aabbccddeeff".
Definition ex_file : bytes := fst (fst (base_output ex_flate ex_u ex_u ex_base)).

Lemma ex_reachable : base_reachable ex_flate ex_base.
Proof. exists (lit "1.5"), None, (mkBase (lit "1.5") [] [] 1), ex_ops. split; reflexivity. Qed.

(** C01: each in-use xref entry is the offset of its object. *)
Theorem C01_xref_offsets : forall flate b u1 u2 file b',
  base_reachable flate b ->
  base_output flate u1 u2 b = (file, Ok tt, b') -> blen file < 10 ^ 10 ->
  exists table rest, xref_of file = Some (table, rest) /\
    List.length table = S (List.length (b_content b)) /\
    nth_error table 0 = Some (0, 65535, false) /\
    forall k o, nth_error (b_content b) k = Some o ->
      exists off body, nth_error table (S k) = Some (off, 0, true) /\
        fst (parse_obj flate o) = Ok body /\
        at_offset file off
          (dec (N.of_nat (S k)) ++ lit " 0 obj" ++ [NL] ++ body ++ NL :: lit "endobj" ++ [NL]).
Proof. exact C01_core. Qed.
Print Assumptions C01_xref_offsets.

Example C01_nonvacuous :
  base_reachable ex_flate ex_base /\ List.length (b_content ex_base) = 3%nat /\
  base_output ex_flate ex_u ex_u ex_base =
    (ex_file, Ok tt, snd (base_output ex_flate ex_u ex_u ex_base)) /\ blen ex_file < 10 ^ 10.
Proof. split; [exact ex_reachable|]. vm_compute. auto. Qed.

(** C02: startxref is the offset of the keyword xref. *)
Theorem C02_startxref : forall flate u1 u2 b file b',
  base_output flate u1 u2 b = (file, Ok tt, b') ->
  exists off, startxref_of file = Some off /\
    at_offset file off (lit "xref" ++ NL :: lit "0 " ++ dec (b_count b) ++ [NL]).
Proof. exact output_startxref. Qed.
Print Assumptions C02_startxref.

Example C02_nonvacuous : startxref_of ex_file = Some 199.
Proof. vm_compute. reflexivity. Qed.

(** C03: shape of the xref section and the trailer's Size. *)
Theorem C03_xref_shape : forall flate b u1 u2 file b' tv,
  base_reachable flate b ->
  base_output flate u1 u2 b = (file, Ok tt, b') -> blen file < 10 ^ 10 ->
  forallb is_hex u1 = true -> forallb is_hex u2 = true ->
  denote (ODict (b_trailer b)) = Some (VDict tv) ->
  exists table rest dv tail,
    xref_of file = Some (table, rest) /\
    List.length table = S (List.length (b_content b)) /\
    (forall k e, nth_error table (S k) = Some e -> exists off, e = (off, 0, true)) /\
    exists rest', rest = lit "trailer" ++ NL :: rest' /\
    reads rest' (VDict dv) tail /\
    assoc (lit "Size") dv = Some (VInt (Z.of_nat (S (List.length (b_content b))))) /\
    (forall k, k <> lit "Size" -> k <> lit "ID" -> assoc k dv = assoc k tv).
Proof. exact C03_core. Qed.
Print Assumptions C03_xref_shape.

Example C03_nonvacuous :
  forallb is_hex ex_u = true /\ denote (ODict (b_trailer ex_base)) = Some (VDict []).
Proof. vm_compute. auto. Qed.

(** C04: identifiers. *)
Theorem C04_add : forall flate b o r b',
  base_reachable flate b -> base_add b o = (r, b') ->
  (o = ONone -> r = Err TypeError /\ b' = b) /\
  (o <> ONone ->
     r = Ok (OObj (N.of_nat (S (base_len b))) o) /\
     base_len b' = S (base_len b) /\
     base_get b' (Z.of_nat (S (base_len b))) = Ok (Some (OObj (N.of_nat (S (base_len b))) o)) /\
     (forall i, (i <= Z.of_nat (base_len b))%Z -> (0 <= i)%Z -> base_get b' i = base_get b i)).
Proof. exact C04_add_core. Qed.
Print Assumptions C04_add.

Theorem C04_stable : forall flate b o x b' ops,
  base_reachable flate b -> base_add b o = (Ok x, b') ->
  (forall v, ~ In (BSet (Z.of_nat (S (base_len b))) v) ops) ->
  (exists o', base_get (base_run flate b' ops) (Z.of_nat (S (base_len b))) =
     Ok (Some (OObj (N.of_nat (S (base_len b))) o'))) /\
  ((forall u1 u2, ~ In (BOut u1 u2) ops) ->
     base_get (base_run flate b' ops) (Z.of_nat (S (base_len b))) = Ok (Some x)) /\
  (forall o2 x2 b2, base_add (base_run flate b' ops) o2 = (Ok x2, b2) ->
     exists id2, x2 = OObj id2 o2 /\ N.of_nat (S (base_len b)) < id2).
Proof. exact C04_stable_core. Qed.
Print Assumptions C04_stable.

Theorem C04_zero_is_no_object : forall b, base_get b 0 = Ok None.
Proof. reflexivity. Qed.
Print Assumptions C04_zero_is_no_object.

Example C04_nonvacuous :
  base_get ex_base 2 = Ok (Some (OObj 2 ex_stream)) /\ base_get ex_base 3 = Ok (Some (OInt 12)) /\
  base_get ex_base 4 = Err IndexError.
Proof. vm_compute. auto. Qed.

(** C05: what is written reads back as the same object, followed by anything
    that is a separate token and is not the tail of a reference. *)
Theorem C05_roundtrip : forall flate o v, denote o = Some v ->
  exists body, parse_obj flate o = (Ok body, o) /\
    forall rest,
      match rest with [] => True | c :: _ => is_regular c = false end ->
      ref_tail rest = None -> fst (span is_regular (skip_ws false rest)) <> lit "R" ->
      reads (body ++ rest) v rest.
Proof. exact C05_core. Qed.
Print Assumptions C05_roundtrip.

Example C05_nonvacuous : denote ex_dict =
  Some (VDict [(lit "Type", VName (lit "Catalog")); (lit "Pages", VRef 2 0);
         (lit "T", VStr (lit "a(b)c")); (lit "K", VArr [VInt 1; VInt 0; VRef 3 0; VBool true;
           VReal (lit "-0.5"); VDict [(lit "X", VInt (-7))]])]).
Proof. vm_compute. reflexivity. Qed.

(** C05, end to end: from the written file, through the xref table, back to
    every representable object. *)
Theorem C05_file_roundtrip : forall flate b u1 u2 file b',
  base_reachable flate b ->
  base_output flate u1 u2 b = (file, Ok tt, b') -> blen file < 10 ^ 10 ->
  exists table rest, xref_of file = Some (table, rest) /\
    forall k o v, nth_error (b_content b) k = Some o -> denote o = Some v ->
      exists off pre post more,
        nth_error table (S k) = Some (off, 0, true) /\
        file = pre ++ dec (N.of_nat (S k)) ++ lit " 0 obj" ++ NL :: post /\ blen pre = off /\
        reads post v (NL :: lit "endobj" ++ more).
Proof. exact C05_file_core. Qed.
Print Assumptions C05_file_roundtrip.

(** C06 is false: a backslash is not escaped.  A lone backslash swallows the
    closing parenthesis, and a backslash followed by n is read as a line end. *)
Theorem C06_text_survives_refuted :
  (exists s, forallb (fun c => c <? 256) s = true /\
    exists body, parse_obj (fun b => b) (OStr s) = (Ok body, OStr s) /\
    forall v r, ~ reads (body ++ NL :: lit "endobj" ++ [NL]) v r) /\
  (exists s, forallb (fun c => c <? 256) s = true /\
    exists body, parse_obj (fun b => b) (OStr s) = (Ok body, OStr s) /\
    exists t, t <> s /\
    reads (body ++ NL :: lit "endobj" ++ [NL]) (VStr t) (NL :: lit "endobj" ++ [NL])).
Proof.
  split.
  - exists [92]. split; [reflexivity|]. eexists. split; [vm_compute; reflexivity|].
    intros v r [[|f] H]; vm_compute in H; discriminate.
  - exists [92; 110]. split; [reflexivity|]. eexists. split; [vm_compute; reflexivity|].
    exists [10]. split; [discriminate|]. exists 1%nat. vm_compute. reflexivity.
Qed.
Print Assumptions C06_text_survives_refuted.

(** C06, the part that holds: latin-1 text without backslash and CR.  Missing:
    text with a backslash or a carriage return. *)
Theorem C06_text_survives_partial : forall flate s more,
  forallb (fun c => (c <? 256) && negb (c =? 92) && negb (c =? 13)) s = true ->
  exists body, parse_obj flate (OStr s) = (Ok body, OStr s) /\
    reads (body ++ NL :: lit "endobj" ++ more) (VStr s) (NL :: lit "endobj" ++ more).
Proof. exact C06_partial_core. Qed.
Print Assumptions C06_text_survives_partial.

Example C06_nonvacuous :
  forallb (fun c => (c <? 256) && negb (c =? 92) && negb (c =? 13)) (lit "f(x) = ((y") = true.
Proof. reflexivity. Qed.

(** C07: a stream dictionary is read back with the right Length, payload and
    other entries, whatever Length the caller had given. *)
Theorem C07_stream : forall flate d s l payload vs,
  NoDup (keys d) ->
  dget (lit "__stream__") d = Some s -> chunks s = Some l ->
  stored_payload flate d (List.concat l) = Some payload ->
  denote_dict (ordinary d) = Some vs ->
  exists b o', parse_obj flate (ODict d) = (Ok b, o') /\
    exists dv, assoc (lit "Length") dv = Some (VInt (Z.of_nat (List.length payload))) /\
      (forall k, k <> lit "Length" -> assoc k dv = assoc k vs) /\
      forall rest, reads_stream (b ++ rest) dv payload rest.
Proof. exact stream_readback. Qed.
Print Assumptions C07_stream.

Example C07_nonvacuous : exists d,
  ex_stream = ODict d /\ chunks (ODict [(lit "0", OBytes (lit "q ")); (lit "1", OBytes (lit "Q"))])
    = Some [lit "q "; lit "Q"] /\
  stored_payload ex_flate d (lit "q Q") = Some (120 :: lit "Q q") /\
  denote_dict (ordinary d) = Some [(lit "Filter", VName (lit "FlateDecode"))].
Proof. eexists. split; [reflexivity|]. vm_compute. auto. Qed.

(** C08: writing again gives the same file, byte for byte, and leaves the
    document as it is. *)
Theorem C08_output_twice : forall flate u1 u2 u3 u4 b file b',
  base_wf b -> base_output flate u1 u2 b = (file, Ok tt, b') ->
  base_output flate u3 u4 b' = (file, Ok tt, b') /\ base_wf b'.
Proof. exact output_twice. Qed.
Print Assumptions C08_output_twice.

Theorem C08_object_twice : forall flate o b o', wf o -> parse_obj flate o = (Ok b, o') ->
  parse_obj flate o' = (Ok b, o') /\ wf o'.
Proof. exact parse_twice. Qed.
Print Assumptions C08_object_twice.

Example C08_nonvacuous : base_wf ex_base.
Proof.
  assert (Hs : wf ex_stream).
  { constructor.
    - repeat constructor; cbn; intuition discriminate.
    - intros k v [[= <- <-]|[[= <- <-]|[[= <- <-]|[]]]]; try constructor.
      + repeat constructor; cbn; intuition discriminate.
      + intros k v [[= <- <-]|[[= <- <-]|[]]]; constructor. }
  assert (Hd : wf ex_dict).
  { constructor.
    - repeat constructor; cbn; intuition discriminate.
    - intros k v [[= <- <-]|[[= <- <-]|[[= <- <-]|[[= <- <-]|[]]]]]; try constructor.
      intros v [<-|[<-|[<-|[<-|[<-|[<-|[]]]]]]]; try constructor.
      + repeat constructor; cbn; tauto.
      + intros k v [[= <- <-]|[]]; constructor. }
  split.
  - intros o [<-|[<-|[<-|[]]]]; [apply wf_obj, Hd|apply wf_obj, Hs|apply wf_int].
  - constructor; [constructor|]. intros k v [].
Qed.

(** The filters of the PDF reference (7.4, table 6) other than FlateDecode, as
    they are spelt in a stream dictionary. *)
Inductive other_filter : bytes -> Prop :=
| F_hex : other_filter (lit "/ASCIIHexDecode")
| F_85 : other_filter (lit "/ASCII85Decode")
| F_lzw : other_filter (lit "/LZWDecode")
| F_rl : other_filter (lit "/RunLengthDecode")
| F_fax : other_filter (lit "/CCITTFaxDecode")
| F_jbig : other_filter (lit "/JBIG2Decode")
| F_dct : other_filter (lit "/DCTDecode")
| F_jpx : other_filter (lit "/JPXDecode")
| F_crypt : other_filter (lit "/Crypt").

(** C71: a stream that names a filter and is not marked as encoded already is
    never written with bytes in another encoding.  With [/FlateDecode] the
    payload is encoded (C07); a filter of the PDF reference other than that
    raises NotImplementedError, any other name an Exception, and a value that
    is not a name an AttributeError; in those cases no bytes come out. *)
Theorem C71_filters : forall flate d s l f,
  dget (lit "__stream__") d = Some s -> chunks s = Some l ->
  dget (lit "Filter") d = Some f ->
  dget (lit "__skip_filter__") d = None \/ dget (lit "__skip_filter__") d = Some (OBool false) ->
  (forall b, f = OBytes b -> other_filter b ->
    fst (parse_obj flate (ODict d)) = Err NotImplementedError) /\
  (forall b, f = OBytes b -> b <> lit "/FlateDecode" -> ~ other_filter b ->
    fst (parse_obj flate (ODict d)) = Err PyException) /\
  ((forall b, f <> OBytes b) -> fst (parse_obj flate (ODict d)) = Err AttributeError).
Proof.
  intros flate d s l f Hs Hc Hf Hk.
  assert (E : forall e, encode_stream flate (List.concat l) f = Err e ->
    fst (parse_obj flate (ODict d)) = Err e).
  { intros e He. rewrite parse_obj_eq. unfold dmem. change k_stream with (lit "__stream__").
    rewrite Hs. unfold pstream. change k_stream with (lit "__stream__"). rewrite Hs. cbv zeta.
    rewrite (stream_string_chunks s l Hc).
    rewrite !dget_dpop_other by discriminate. change k_Filter with (lit "Filter").
    change k_skip with (lit "__skip_filter__"). rewrite Hf.
    replace (match dget (lit "__skip_filter__") d with Some o => truthy o | None => false end)
      with false by (destruct Hk as [-> | ->]; reflexivity).
    rewrite He. reflexivity. }
  split; [|split].
  - intros b -> Hb. apply E. destruct Hb; reflexivity.
  - intros b -> Hn Ho. apply E. unfold encode_stream.
    rewrite (proj2 (str_eqb_neq b _) Hn).
    replace (existsb (str_eqb b) not_implemented_filters) with false; [reflexivity|].
    symmetry. apply not_true_is_false. intro H. apply existsb_exists in H as (x & Hx & Hq).
    apply str_eqb_eq in Hq as ->. apply Ho.
    repeat (destruct Hx as [<-|Hx]; [constructor|]). destruct Hx.
  - intros Hn. apply E. destruct f; try reflexivity. exfalso. exact (Hn b eq_refl).
Qed.
Print Assumptions C71_filters.

Example C71_nonvacuous :
  let d := [(lit "Filter", OBytes (lit "/DCTDecode")); (lit "__stream__", OBytes [1; 2])] in
  chunks (OBytes [1; 2]) = Some [[1; 2]] /\ other_filter (lit "/DCTDecode") /\
  fst (parse_obj (fun b => b) (ODict d)) = Err NotImplementedError.
Proof. split; [reflexivity|]. split; [constructor|]. vm_compute. reflexivity. Qed.

(** C09 is false: when the encoder raises, the stream's content is gone from
    the document. *)
Theorem C09_failed_write_refuted : exists o o',
  parse_obj (fun b => b) o = (Err NotImplementedError, o') /\
  exists d d', o = ODict d /\ o' = ODict d' /\
    dget (lit "__stream__") d = Some (OBytes (lit "data")) /\ dget (lit "__stream__") d' = None.
Proof.
  exists (ODict [(k_stream, OBytes (lit "data")); (lit "Filter", OBytes (lit "/LZWDecode"))]).
  eexists. split; [vm_compute; reflexivity|]. eexists _, _. split; [reflexivity|].
  split; [reflexivity|]. vm_compute. auto.
Qed.
Print Assumptions C09_failed_write_refuted.

(** C09, the part that holds: objects without streams are never changed by
    serialization, failing or not.  Missing: stream dictionaries. *)
Theorem C09_failed_write_partial : forall flate o, no_stream o = true ->
  snd (parse_obj flate o) = o.
Proof. exact (fun flate o => no_stream_unchanged flate _ o (Nat.lt_succ_diag_r _)). Qed.
Print Assumptions C09_failed_write_partial.

Example C09_nonvacuous : no_stream (OSeq [ex_dict; OStr [300]]) = true /\
  fst (parse_obj (fun b => b) (OSeq [ex_dict; OStr [300]])) = Err UnicodeEncodeError.
Proof. vm_compute. auto. Qed.

(** C70, the part that holds: the file starts with the header of its version,
    alone on its line, and a comment line follows. *)
Theorem C70_header_partial : forall flate u1 u2 b file b',
  base_output flate u1 u2 b = (file, Ok tt, b') ->
  exists comment rest, file = lit "%PDF-" ++ b_version b ++ [NL] ++ [37] ++ comment ++ [NL] ++ rest /\
    ~ In NL comment /\ ~ In 13 comment.
Proof.
  intros flate u1 u2 b file b'. unfold base_output.
  destruct (encode_latin (header_text (b_version b))) as [h|e] eqn:Eh; [|discriminate].
  apply encode_latin_ok in Eh. subst h.
  destruct (out_objs flate 1 _ (b_content b)) as [[[[w xr] c] content'] r].
  destruct r as [[]|e]; [|discriminate].
  destruct (parse_obj flate (ODict (final_trailer u1 u2 b))) as [[tb|e] t']; [|discriminate].
  intros [= <- _]. unfold header_text.
  exists [37; 18; 57; 18; 57; 18; 57]. eexists. split.
  - rewrite <- !app_assoc. do 2 f_equal. cbn [app]. rewrite <- ?app_assoc. reflexivity.
  - split; cbn; intuition discriminate.
Qed.
Print Assumptions C70_header_partial.
Example C70_nonvacuous : exists b', base_output ex_flate ex_u ex_u ex_base = (ex_file, Ok tt, b') /\
  firstn 10 ex_file = lit "%PDF-1.5" ++ [NL; 37].
Proof. exists (snd (base_output ex_flate ex_u ex_u ex_base)). split; reflexivity. Qed.
(** C70 as the format asks (PDF 32000, 7.5.2): the comment is to hold four
    bytes from 128 on, so that transfer programs take the file as binary. No
    file has them, whatever its streams hold. *)
Theorem C70_header_refuted : forall flate u1 u2 b file b',
  base_output flate u1 u2 b = (file, Ok tt, b') -> ~ In NL (b_version b) ->
  forall comment rest, file = lit "%PDF-" ++ b_version b ++ [NL] ++ [37] ++ comment ++ [NL] ++ rest ->
  ~ In NL comment -> Forall (fun c => c < 128) comment.
Proof.
  intros flate u1 u2 b file b' H Hv comment rest E Hc. unfold base_output in H.
  destruct (encode_latin (header_text (b_version b))) as [h|e] eqn:Eh; [|discriminate].
  apply encode_latin_ok in Eh. subst h.
  destruct (out_objs flate 1 _ (b_content b)) as [[[[w xr] c] content'] r].
  destruct r as [[]|e]; [|discriminate].
  destruct (parse_obj flate (ODict (final_trailer u1 u2 b))) as [[tb|e] t']; [|discriminate].
  apply (f_equal (fun x => fst (fst x))) in H. cbn [fst] in H. rewrite <- H in E. unfold header_text in E. rewrite <- !app_assoc in E.
  apply app_inv_head in E. apply app_inv_head in E. cbn [app lit list_ascii_of_string map] in E.
  injection E as E. clear - E Hc.
  assert (Hgo : forall l1 : str, ~ In NL l1 -> forall l2 r1 r2, ~ In NL l2 -> l1 ++ NL :: r1 = l2 ++ NL :: r2 -> l1 = l2).
  { induction l1 as [|x l1 IH]; intros H1 [|y l2] r1 r2 H2 He; cbn [app] in He.
    - reflexivity.
    - injection He as He _. subst y. destruct H2. now left.
    - injection He as He _. subst x. destruct H1. now left.
    - injection He as Hx He. subst y. f_equal. eapply IH; [| |exact He]; intros HI; [apply H1|apply H2]; now right. }
  assert (Heq : [37; 18; 57; 18; 57; 18; 57] = comment).
  { eapply Hgo; [| |cbn [app] in *; exact E]; [cbn; intuition discriminate|exact Hc]. }
  subst comment. repeat constructor.
Qed.
Print Assumptions C70_header_refuted.
