(** Property C85: what was put into a document is found again in the file,
    by a reader that starts at the end of the file and knows only its bytes. *)
From Coq Require Import String QArith Sorted.
From Verif Require Import Py PyStr PdfSyntax PdfFile Parser Denote StreamProofs Base Store NameTree OutlineTree Fonts PdfObj PdfObjSpec PdfObjRun PdfObjDoc PdfWhole PdfReader FileSpec GoodObjs FileProofs PDoc.
Open Scope N_scope.
Open Scope list_scope.

(** Font files whose name and descriptor can be written. *)
Definition readable_fonts (load_ttf : str -> res ttf) (descr : ttf -> dict) : Prop :=
  forall path t, load_ttf path = Ok t -> plain_name (tt_base t) = true /\
    Forall (fun kv => plain_name (fst kv) = true /\ fst kv <> lit "__stream__" /\ denote (snd kv) <> None) (descr t).
Lemma readable_ok load_ttf descr : readable_fonts load_ttf descr ->
  forall path t, load_ttf path = Ok t -> plain_name (tt_base t) = true /\ dgood (descr t).
Proof.
  intros H path t E. destruct (H _ _ E) as [H1 H2]. split; [exact H1|]. eapply Forall_impl; [|exact H2].
  intros [k v] (A & B & C). cbn [fst snd] in A, B, C. split; [exact A|]. split; [exact B|]. cbn [snd]. unfold dn. destruct (denote v); [reflexivity|now elim C].
Qed.
Lemma readable_num (num : Q -> obj) : (forall q, denote (num q) <> None) -> forall q, dn (num q) = true.
Proof. intros H q. specialize (H q). unfold dn. destruct (denote (num q)); [reflexivity|now elim H]. Qed.

(** C85: the page tree of the file holds one page for each page of the
    history, in order; each has its size, the texts and images shown on it
    in order, and its links.  The named destinations are the labels, sorted,
    each at the place it was last put on; the outline lists the outlines
    with their depths, in order.  Partial: the texts of labels, addresses
    and titles must be writable (C06 refutes it for others), the keys of
    image objects are none of those of tree nodes, and the file is not
    longer than its table can say (C01). *)
Theorem C85_file_partial : forall load_ttf num round3 descr ttf_file txt flate u1 u2 version p ops level s st file,
  (forall q, denote (num q) <> None) -> readable_fonts load_ttf descr -> Forall clear_op ops ->
  written load_ttf num round3 descr ttf_file p ops level s st ->
  write_doc txt flate u1 u2 version s st = (file, Ok tt) -> blen file < 10 ^ 10 ->
  forallb is_hex u1 = true -> forallb is_hex u2 = true ->
  let h := history ops in
  exists ids, has_pages file ids /\ NoDup ids /\ List.length ids = List.length (page_sizes h) /\
    (forall i id size, nth_error ids i = Some id -> nth_error (page_sizes h) i = Some size ->
       page_at num round3 txt flate file h i id size) /\
    (exists cat labels, catalog_is file cat /\ names_are file cat labels /\ StronglySorted str_lt (map fst labels) /\
       forall l, match last_label l h with
                 | Some pl => exists v, assoc l labels = Some v /\ place_at num round3 ids (page_sizes h) pl v
                 | None => assoc l labels = None
                 end) /\
    (exists cat items, catalog_is file cat /\ outline_is file cat items /\
       listed 1 items = map (fun o => (Z.to_nat (Z.max 1 (fst o)), snd o)) (outlines h)).
Proof.
  intros load_ttf num round3 descr ttf_file txt flate u1 u2 version p ops level s st file Hn Hf Hc W O Hs H1 H2. cbv zeta.
  pose proof (readable_num _ Hn) as Hn'. pose proof (readable_ok _ _ Hf) as Hf'.
  assert (I := made_inv _ _ _ _ _ _ _ _ (proj1 W)).
  exists (map pp_id (d_pages s)). split; [eapply doc_has_pages; eauto|]. split; [apply I|].
  split; [rewrite <- (PdfObjProofs.i_sizes _ _ _ _ _ _ _ _ _ I), !map_length; reflexivity|].
  split; [|split; [eapply doc_label_pairs; eauto|eapply doc_outline; eauto]].
  rewrite <- (PdfObjProofs.i_sizes _ _ _ _ _ _ _ _ _ I).
  intros i id size Hi Hsz. rewrite nth_error_map in Hi, Hsz. destruct (nth_error (d_pages s) i) as [pg|] eqn:Ei; [|discriminate].
  cbn [option_map] in Hi, Hsz. injection Hi as <-. injection Hsz as <-. eapply doc_page; eauto.
Qed.
Print Assumptions C85_file_partial.

(** The fonts of the texts, in a process that has loaded nothing yet and
    with the fonts registered before. *)
Theorem C85_fonts_partial : forall load_ttf num round3 descr ttf_file txt flate u1 u2 version reg ops level s st file,
  (forall q, denote (num q) <> None) -> readable_fonts load_ttf descr -> Forall clear_op ops -> Forall no_add_font ops ->
  written load_ttf num round3 descr ttf_file (mkProc reg []) ops level s st ->
  write_doc txt flate u1 u2 version s st = (file, Ok tt) -> blen file < 10 ^ 10 ->
  forallb is_hex u1 = true -> forallb is_hex u2 = true ->
  exists ids font_of, has_pages file ids /\
    (forall k k' r id r' id', font_of k = Some (r, id) -> font_of k' = Some (r', id') -> r = r' \/ id = id' -> k = k') /\
    forall i id, nth_error ids i = Some id -> fonts_at load_ttf descr ttf_file flate file reg font_of (history ops) i id.
Proof.
  intros load_ttf num round3 descr ttf_file txt flate u1 u2 version reg ops level s st file Hn Hf Hc Ha W O Hs H1 H2.
  pose proof (readable_num _ Hn) as Hn'. pose proof (readable_ok _ _ Hf) as Hf'.
  exists (map pp_id (d_pages s)), (fun k => kget k (d_used s)). split; [eapply doc_has_pages; eauto|].
  split; [exact (proj1 (proj2 (doc_fonts_at _ _ _ _ _ _ _ _ _ _ Ha W)))|]. intros i id Hi. eapply doc_page_fonts; eauto.
Qed.
Print Assumptions C85_fonts_partial.

(** The document of PDoc.v: it can be written, and the hypotheses hold. *)
Definition ex_txt (q : Q) : str := dec (Z.to_N (Qnum q)).
Definition ex_small (s : pdf) (st : store) : bool :=
  match write_doc ex_txt (fun b => 120 :: rev b) (lit "0a") (lit "1b") (lit "1.5") s st with
  | (file, Ok _) => blen file <? 10 ^ 10
  | _ => false
  end.
Example C85_nonvacuous : exists s st file,
  (forall q, denote (ex_num q) <> None) /\ readable_fonts ex_load (fun _ => []) /\ Forall clear_op ex_ops /\ Forall no_add_font ex_ops /\
  written ex_load ex_num (fun q => q) (fun _ => []) (fun _ => []) (mkProc [] []) ex_ops 1 s st /\
  write_doc ex_txt (fun b => 120 :: rev b) (lit "0a") (lit "1b") (lit "1.5") s st = (file, Ok tt) /\ blen file < 10 ^ 10 /\
  List.length (page_sizes (history ex_ops)) = 2%nat.
Proof.
  destruct ex_written as (s & st & W & H).
  assert (E : ex_small s st = true).
  { rewrite <- (H bool ex_small false). vm_compute. reflexivity. }
  unfold ex_small in E. exists s, st. destruct (write_doc _ _ _ _ _ s st) as [file [[]|]] eqn:Ew; [|discriminate].
  exists file. split; [discriminate|]. split; [intros path t; discriminate|].
  split.
  { unfold ex_ops. repeat (apply Forall_cons || apply Forall_nil); cbn [clear_op ex_tx tx_ids ex_img]; try exact Logic.I;
      repeat (apply Forall_cons || apply Forall_nil); cbn [fst snd clear_id]; try reflexivity; try (split; reflexivity);
      (split; [repeat (apply Forall_cons || apply Forall_nil); right; split; try reflexivity; discriminate|];
       cbn [In]; intros k Hk; repeat destruct Hk as [<-|Hk]; try contradiction; reflexivity). }
  split; [repeat (constructor; [exact Logic.I|]); constructor|]. split; [exact W|]. split; [reflexivity|].
  split; [now apply N.ltb_lt|reflexivity].
Qed.
