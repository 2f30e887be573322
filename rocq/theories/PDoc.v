(** The document as a whole: pages, labels, outlines, images, fonts and
    links (C10-C13, C20-C22, C58).

    [written load_ttf num round3 descr file p ops level s st] says that a new
    document in the process [p], after the operations [ops], is the document
    [s] and that [output(outlines_level=level)] writes the objects [st].
    [history ops] lists what the operations did, each with its page;
    [out_pages st ids] says that the page tree of the catalog of [st] has the
    leaves [ids] in order. *)
From Coq Require Import String QArith Sorted FinFun.
From Verif Require Import Py PyStr PdfSyntax Parser StreamProofs Store PageTree NameTree OutlineTree Fonts PdfObj PdfObjSpec PdfObjFonts PdfObjProofs PdfObjSteps PdfObjRun PdfObjOut PdfObjDoc.
Open Scope N_scope.
Open Scope list_scope.

(** A document used for the examples: two pages, texts with a label, a
    reference, two links to one address, nested outlines, and images. *)
Definition ex_num (q : Q) : obj := OInt (Qnum q).
Definition ex_load (_ : str) : res ttf := Err IndexError.
Definition ex_rc (a b c d : Z) : rect := (inject_Z a, inject_Z b, inject_Z c, inject_Z d).
Definition ex_tx (sty : list style) (ids : list (idk * list rect)) : text :=
  mkText 10 700 (lit "BT (a) Tj ET") sty ids.
Definition ex_helv : style := (lit "Helvetica", false, false).
Definition ex_bold : style := (lit "Times", true, false).
Definition ex_img : dict := [(lit "Subtype", name "/Image")].
Definition ex_ops : list op :=
  [OpPage 595 842;
   OpText (ex_tx [ex_helv] [(ILabel (lit "start"), [ex_rc 0 0 5 5; ex_rc 1 1 6 6]); (IOutline 1 (lit "One") (lit "start"), [ex_rc 0 0 5 5])]);
   OpImage (lit "a.jpg") ex_img 10 10 0 0;
   OpPage 200 300;
   OpText (ex_tx [ex_helv; ex_bold] [(IUri (lit "http://x"), [ex_rc 0 0 5 5; ex_rc 1 1 6 6]); (IRef (lit "start"), [ex_rc 2 2 3 3]);
                            (IOutline 2 (lit "Two") (lit "start"), [ex_rc 0 0 5 5])]);
   OpImage (lit "b.jpg") ex_img 10 10 0 0; OpImage (lit "a.jpg") [] 20 20 5 5;
   OpSelect 0;
   OpText (ex_tx [ex_bold] [(IUri (lit "http://x"), [ex_rc 0 0 5 5])])].

Definition ex_write load (ops : list op) : res (pdf * store) :=
  do s0 <- new_pdf load ex_num (fun _ => []) (fun _ => []) (mkProc [] []);
  do s <- run load ex_num (fun q => q) (fun _ => []) (fun _ => []) ops s0;
  do st <- output_objects ex_num 1 s;
  Ok (s, st).
Definition is_ok {A} (r : res A) : bool := match r with Ok _ => true | Err _ => false end.
Lemma ex_write_written load ops : is_ok (ex_write load ops) = true ->
  exists s st, written load ex_num (fun q => q) (fun _ => []) (fun _ => []) (mkProc [] []) ops 1 s st /\
  ex_write load ops = Ok (s, st).
Proof.
  destruct (ex_write load ops) as [[s st]|] eqn:E; [intros _|discriminate]. exists s, st. split; [|reflexivity].
  unfold ex_write in E. destruct (new_pdf _ _ _ _ _) as [s0|] eqn:E0; [|discriminate]. cbn [bind] in E.
  destruct (run _ _ _ _ _ _ _) as [s1|] eqn:E1; [|discriminate]. cbn [bind] in E.
  destruct (output_objects _ _ _) as [st1|] eqn:E2; [|discriminate]. cbn [bind] in E. injection E as -> ->.
  split; [|exact E2]. exists s0. auto.
Qed.
Definition on_doc {A} load ops (f : pdf -> store -> A) (d : A) : A :=
  match ex_write load ops with Ok (s, st) => f s st | Err _ => d end.
Lemma ex_written : exists s st, written ex_load ex_num (fun q => q) (fun _ => []) (fun _ => []) (mkProc [] []) ex_ops 1 s st /\
  forall A (f : pdf -> store -> A) d, on_doc ex_load ex_ops f d = f s st.
Proof.
  destruct (ex_write_written ex_load ex_ops) as (s & st & W & E); [vm_compute; reflexivity|].
  exists s, st. split; [exact W|]. intros A f d. unfold on_doc. now rewrite E.
Qed.

(** C10: after any operations that made at least one page, following Pages
    and Kids from the catalog reaches each page once, in the order they were
    added, with right Counts and Parents ([page_tree]) and with the size of
    the page as MediaBox; without pages output raises. *)
Theorem C10_page_tree : forall load_ttf num round3 descr file p ops level s,
  made load_ttf num round3 descr file p ops s ->
  (page_sizes (history ops) = [] -> output_objects num level s = Err PyException) /\
  (page_sizes (history ops) <> [] -> exists st ids, output_objects num level s = Ok st /\
     out_pages st ids /\ NoDup ids /\
     Forall2 (fun id wh => exists d, sget st id = Some d /\
       dget (lit "MediaBox") d = Some (OSeq [OInt 0; OInt 0; num (fst wh); num (snd wh)])) ids (page_sizes (history ops))).
Proof.
  intros load_ttf num round3 descr file p ops level s H.
  destruct (doc_output load_ttf num round3 descr file p ops level s H) as [H1 H2]. split; [exact H2|].
  intros Hn. destruct (H1 Hn) as [st E]. destruct (doc_pages load_ttf num round3 descr file p ops level s st (conj H E)) as (ids & G).
  exists st, ids. split; [exact E|exact G].
Qed.
Print Assumptions C10_page_tree.
Example C10_nonvacuous : exists s, made ex_load ex_num (fun q => q) (fun _ => []) (fun _ => []) (mkProc [] []) ex_ops s /\
  page_sizes (history ex_ops) = [(595, 842); (200, 300)]%Q.
Proof. destruct ex_written as (s & st & [H _] & _). exists s. split; [exact H|reflexivity]. Qed.

(** C11: for any set of labels the tree is a well formed sorted name tree
    ([name_tree]: Limits, order) and the look-up guided by Limits finds each
    label's destination and nothing else. *)
Theorem C11_name_tree : forall st root rd dests,
  sget st root = Some rd -> names_ok rd -> NoDup (keys dests) -> dests <> [] ->
  exists st' n rd' kvs, build_dests st root dests = Ok st' /\
    sget st' root = Some rd' /\ dests_id rd' = Some (oref n) /\
    name_tree st' true n kvs /\ StronglySorted str_lt (keys kvs) /\
    (forall k, exists fuel0, forall fuel, (fuel0 <= fuel)%nat -> name_lookup fuel st' n k = dget k dests) /\
    (forall id d, id <> root -> sget st id = Some d -> sget st' id = Some d).
Proof.
  intros st root rd dests Hr Hn Hd Hne.
  destruct (build_dests_spec st root rd dests Hr Hn Hd Hne) as (st' & n & E & R & Hnr & T & S & K).
  exists st', n, (set_dests n rd), (sort_keys dests). split; [exact E|]. split; [exact R|].
  split; [apply (set_dests_id n rd Hn)|]. split; [exact T|]. split; [exact S|]. split; [|exact K].
  intros k. destruct (name_lookup_spec _ _ _ _ k T S) as [f Hf]. exists f. intros fuel Hle. rewrite (Hf _ Hle).
  apply (sort_keys_spec dests Hd).
Qed.
Print Assumptions C11_name_tree.
(** The same for a document: every label is found, with the place it was
    last put on, and no other name is. *)
Theorem C11_document_labels : forall load_ttf num round3 descr file p ops level s st,
  written load_ttf num round3 descr file p ops level s st ->
  exists ids, out_pages st ids /\
    forall l, exists n, forall fuel, (n <= fuel)%nat -> find_label st fuel l =
      match last_label l (history ops) with
      | Some pl => place_obj num round3 ids (page_sizes (history ops)) pl
      | None => None
      end.
Proof. exact doc_labels. Qed.
Print Assumptions C11_document_labels.
Example C11_nonvacuous : exists s st, written ex_load ex_num (fun q => q) (fun _ => []) (fun _ => []) (mkProc [] []) ex_ops 1 s st /\
  last_label (lit "start") (history ex_ops) = Some (0%nat, (10, 700, ex_rc 0 0 5 5))%Q /\
  find_label st 5 (lit "start") <> None /\ find_label st 5 (lit "stars") = None.
Proof.
  destruct ex_written as (s & st & W & E). exists s, st. split; [exact W|]. split; [vm_compute; reflexivity|].
  split.
  - rewrite <- (E _ (fun _ st => find_label st 5 (lit "start")) None). vm_compute. discriminate.
  - rewrite <- (E _ (fun _ st => find_label st 5 (lit "stars")) None). vm_compute. reflexivity.
Qed.

(** C12: for every forest, walking First and Next from the root meets
    exactly the items of the forest with their titles and destinations;
    Prev, Last and Parent agree ([chain]), and the root's Count is the number
    of visible items. *)
Theorem C12_outline_objects : forall st root rd forest level, sget st root = Some rd -> forest <> [] ->
  let st' := build_outlines st root forest level in
  exists id d lst,
    sget st' root = Some (dset (lit "Outlines") (oref id) (dset (lit "PageMode") (name "/UseOutlines") rd)) /\
    (forall i, (i <= List.length st)%nat -> i <> root -> sget st' i = sget st i) /\
    sget st' id = Some d /\ dget (lit "Type") d = Some (name "/Outlines") /\
    dget (lit "Count") d = Some (OInt (visible level forest)) /\
    dget (lit "Last") d = Some (oref lst) /\
    chain st' level id None (dget (lit "First") d) forest (Some lst) (seq (S id) (size forest)).
Proof. exact build_outlines_spec. Qed.
Print Assumptions C12_outline_objects.
(** The same for a document: the forest is the one whose reading order lists
    the outlines in the order they were given, each at its level. *)
Theorem C12_document_outlines : forall load_ttf num round3 descr file p ops level s st,
  written load_ttf num round3 descr file p ops level s st ->
  exists forest,
    preorder 1 forest = map (fun o => (Z.to_nat (Z.max 1 (fst o)), snd o)) (outlines (history ops)) /\
    (forest = [] -> out_outlines st = None) /\
    (forest <> [] -> exists m d lst, out_outlines st = Some (oref m) /\ sget st m = Some d /\
             dget (lit "Type") d = Some (name "/Outlines") /\
             dget (lit "Count") d = Some (OInt (visible level forest)) /\
             dget (lit "Last") d = Some (oref lst) /\
             chain st level m None (dget (lit "First") d) forest (Some lst) (seq (S m) (size forest))).
Proof. exact doc_outlines. Qed.
Print Assumptions C12_document_outlines.
Example C12_nonvacuous : exists s st, written ex_load ex_num (fun q => q) (fun _ => []) (fun _ => []) (mkProc [] []) ex_ops 1 s st /\
  outlines (history ex_ops) = [(1%Z, (lit "One", lit "start")); (2%Z, (lit "Two", lit "start"))] /\ out_outlines st <> None.
Proof.
  destruct ex_written as (s & st & W & E). exists s, st. split; [exact W|]. split; [vm_compute; reflexivity|].
  rewrite <- (E _ (fun _ st => out_outlines st) None). vm_compute. discriminate.
Qed.

(** C13: an outline of level L is put at depth L after all the others in
    reading order if the last outline is at depth L - 1 or deeper, otherwise
    an IndexError is raised. *)
Theorem C13_outline_insertion : forall level t l f,
  (add_outline level t l f = Err IndexError /\ (1 < level)%Z /\ (Z.of_nat (last_depth f) + 1 < level)%Z) \/
  (exists f', add_outline level t l f = Ok f' /\
     ((level <= 1)%Z \/ (level <= Z.of_nat (last_depth f) + 1)%Z) /\
     preorder 1 f' = preorder 1 f ++ [(Z.to_nat (Z.max 1 level), (t, l))]).
Proof. exact add_outline_spec. Qed.
Print Assumptions C13_outline_insertion.
(** Any sequence of additions, the raising ones skipped. *)
Theorem C13_outline_sequences : forall seq,
  preorder 1 (outlines_run [] seq) = accepted 0 seq.
Proof. intros seq. exact (outlines_run_preorder seq []). Qed.
Print Assumptions C13_outline_sequences.
Example C13_nonvacuous :
  let a n l := (l, (lit n, [])) in
  accepted 0 [a "A" 1; a "B" 2; a "C" 4; a "D" 3; a "E" 2]%string%Z =
  [(1, (lit "A", [])); (2, (lit "B", [])); (3, (lit "D", [])); (2, (lit "E", []))]%nat.
Proof. vm_compute. reflexivity. Qed.

(** C20: each image name has one object, holding the image first given under
    it; on every page the names are distinct and stand for distinct objects,
    and each drawing command, in order, uses a name bound to its image. *)
Theorem C20_images : forall load_ttf num round3 descr file p ops level s st,
  written load_ttf num round3 descr file p ops level s st ->
  exists ids obj_of, out_pages st ids /\
    (forall n n' id, obj_of n = Some id -> obj_of n' = Some id -> n = n') /\
    forall i pid, nth_error ids i = Some pid ->
      NoDup (keys (res_of (lit "XObject") (odict st pid))) /\
      NoDup (map snd (res_of (lit "XObject") (odict st pid))) /\
      Forall2 (draw_ok st (history ops) obj_of pid) (parts_of s i) (shows (on i (history ops))).
Proof. exact doc_images. Qed.
Print Assumptions C20_images.
Example C20_nonvacuous : exists s st, written ex_load ex_num (fun q => q) (fun _ => []) (fun _ => []) (mkProc [] []) ex_ops 1 s st /\
  map (fun e => match e with EDraw n _ _ _ _ => n | _ => [] end) (shows (on 1 (history ex_ops))) = [[]; lit "b.jpg"; lit "a.jpg"] /\
  map (fun p => match p with PImage n _ _ _ _ => n | _ => [] end) (parts_of s 1) = [[]; lit "Im0"; lit "Im1"].
Proof.
  destruct ex_written as (s & st & W & E). exists s, st. split; [exact W|]. split; [vm_compute; reflexivity|].
  rewrite <- (E _ (fun s _ => map (fun p => match p with PImage n _ _ _ _ => n | _ => [] end) (parts_of s 1)) []). vm_compute. reflexivity.
Qed.

(** C21, for documents to which the user adds no font of their own: each used
    (family, mode) has one font object, of the right base font; different
    fonts have different resource names; every page lists each font its texts
    use under the name the texts use, and a reader finds there all it needs to
    show the text: the encoding, and for a font that is not a standard one
    the font file with its widths and the characters of its glyphs. *)
Theorem C21_fonts_partial : forall load_ttf num round3 descr file reg ops level s st,
  Forall no_add_font ops -> written load_ttf num round3 descr file (mkProc reg []) ops level s st ->
  exists ids font_of, out_pages st ids /\
    (forall k k' r id r' id', font_of k = Some (r, id) -> font_of k' = Some (r', id') -> r = r' \/ id = id' -> k = k') /\
    forall i pid, nth_error ids i = Some pid ->
      Forall2 (text_ok load_ttf num descr file st reg font_of pid) (parts_of s i) (shows (on i (history ops))).
Proof. intros. eapply doc_fonts; eassumption. Qed.
Print Assumptions C21_fonts_partial.
Example C21_nonvacuous : exists s st, Forall no_add_font ex_ops /\
  written ex_load ex_num (fun q => q) (fun _ => []) (fun _ => []) (mkProc [] []) ex_ops 1 s st /\
  map (fun p => match p with PText r _ => r | _ => [] end) (parts_of s 1) = [[lit "F1"; lit "F6"]; []; []].
Proof.
  destruct ex_written as (s & st & W & E). exists s, st. split; [|split; [exact W|]].
  - unfold ex_ops. repeat (constructor; [exact Logic.I|]). constructor.
  - rewrite <- (E _ (fun s _ => map (fun p => match p with PText r _ => r | _ => [] end) (parts_of s 1)) []). vm_compute. reflexivity.
Qed.
(** A text in a font registered by the user: it is embedded. *)
Definition own_ttf : ttf := mkTtf (lit "Own") [(65, 1); (66, 2)] (fun g => Z.of_N g) 1000.
Definition own_ops : list op := [OpPage 100 100; OpText (ex_tx [(lit "Own", false, false)] [])].
Example C21_embedded_nonvacuous : exists s st, Forall no_add_font own_ops /\
  written (fun _ => Ok own_ttf) ex_num (fun q => q) (fun _ => [(lit "Flags", OInt 4)]) (fun _ => lit "file")
    (mkProc [((lit "Own", lit "n"), lit "f.ttf")] []) own_ops 1 s st /\
  map (fun p => match p with PText r _ => r | _ => [] end) (parts_of s 0) = [[lit "F15"]] /\
  wanted_base (fun _ => Ok own_ttf) [((lit "Own", lit "n"), lit "f.ttf")] (style_key (lit "Own", false, false))
    (lit "Own") (Some own_ttf).
Proof.
  destruct (new_pdf (fun _ => Ok own_ttf) ex_num (fun _ => [(lit "Flags", OInt 4)]) (fun _ => lit "file")
    (mkProc [((lit "Own", lit "n"), lit "f.ttf")] [])) as [s0|] eqn:E0; [|vm_compute in E0; discriminate].
  destruct (run (fun _ => Ok own_ttf) ex_num (fun q => q) (fun _ => [(lit "Flags", OInt 4)]) (fun _ => lit "file") own_ops s0)
    as [s|] eqn:E1; [|exfalso; assert (H : is_ok (do s0 <- new_pdf (fun _ => Ok own_ttf) ex_num (fun _ => [(lit "Flags", OInt 4)]) (fun _ => lit "file")
    (mkProc [((lit "Own", lit "n"), lit "f.ttf")] []); run (fun _ => Ok own_ttf) ex_num (fun q => q) (fun _ => [(lit "Flags", OInt 4)]) (fun _ => lit "file") own_ops s0) = true)
      by (vm_compute; reflexivity); rewrite E0 in H; cbn [bind] in H; rewrite E1 in H; discriminate].
  destruct (output_objects ex_num 1 s) as [st|] eqn:E2.
  2:{ exfalso. assert (H : is_ok (do s0 <- new_pdf (fun _ => Ok own_ttf) ex_num (fun _ => [(lit "Flags", OInt 4)]) (fun _ => lit "file")
    (mkProc [((lit "Own", lit "n"), lit "f.ttf")] []); do s <- run (fun _ => Ok own_ttf) ex_num (fun q => q) (fun _ => [(lit "Flags", OInt 4)]) (fun _ => lit "file") own_ops s0;
      output_objects ex_num 1 s) = true)
      by (vm_compute; reflexivity). rewrite E0 in H. cbn [bind] in H. rewrite E1 in H. cbn [bind] in H. rewrite E2 in H. discriminate. }
  exists s, st. split; [repeat (constructor; [exact Logic.I|]); constructor|].
  split; [split; [exists s0; auto|exact E2]|]. split.
  - assert (H : match (do s0 <- new_pdf (fun _ => Ok own_ttf) ex_num (fun _ => [(lit "Flags", OInt 4)]) (fun _ => lit "file")
    (mkProc [((lit "Own", lit "n"), lit "f.ttf")] []); run (fun _ => Ok own_ttf) ex_num (fun q => q) (fun _ => [(lit "Flags", OInt 4)]) (fun _ => lit "file") own_ops s0)
      with Ok s => map (fun p => match p with PText r _ => r | _ => [] end) (parts_of s 0) | Err _ => [] end = [[lit "F15"]])
      by (vm_compute; reflexivity).
    rewrite E0 in H. cbn [bind] in H. rewrite E1 in H. exact H.
  - cbn. exists (lit "f.ttf"), own_ttf. auto.
Qed.
(** Not so when a font is added for a family already used: the text uses the
    name F15 and the page lists only F1. *)
Definition ex_font_ops : list op :=
  [OpPage 100 100; OpAddFont (lit "f.ttf") (lit "Helvetica", lit "n"); OpText (ex_tx [ex_helv] [])].
Theorem C21_fonts_refuted : exists s st pid,
  written (fun _ => Ok (mkTtf (lit "Own") [(65, 1)] (fun _ => 500%Z) 1000)) ex_num (fun q => q) (fun _ => []) (fun _ => [])
    (mkProc [] []) ex_font_ops 1 s st /\
  out_pages st [pid] /\ parts_of s 0 = [PText [lit "F15"] (lit "BT (a) Tj ET")] /\
  keys (res_of (lit "Font") (odict st pid)) = [lit "F1"].
Proof.
  destruct (ex_write_written (fun _ => Ok (mkTtf (lit "Own") [(65, 1)] (fun _ => 500%Z) 1000)) ex_font_ops) as (s & st & W & E);
    [vm_compute; reflexivity|].
  assert (E' : forall A (f : pdf -> store -> A) d, on_doc (fun _ => Ok (mkTtf (lit "Own") [(65, 1)] (fun _ => 500%Z) 1000)) ex_font_ops f d = f s st).
  { intros A f d. unfold on_doc. now rewrite E. }
  clear E. exists s, st, 4%nat. split; [exact W|]. split; [|split].
  - exists [(lit "Type", name "/Catalog"); (lit "Pages", oref 5)], 5%nat.
    split; [rewrite <- (E' _ (fun _ st => sget st 1) None); vm_compute; reflexivity|]. split; [reflexivity|].
    change [4%nat] with (List.concat [[4%nat]]).
    eapply (tree_node st 5 [(lit "Type", name "/Pages"); (lit "Kids", OSeq [oref 4]); (lit "Count", OInt 1)] None [4%nat]);
      [|reflexivity|reflexivity|reflexivity|reflexivity|].
    + rewrite <- (E' _ (fun _ st => sget st 5) None); vm_compute; reflexivity.
    + constructor; [|constructor]. eapply tree_leaf.
      * rewrite <- (E' _ (fun _ st => sget st 4) None); vm_compute; reflexivity.
      * reflexivity.
      * reflexivity.
  - rewrite <- (E' _ (fun s _ => parts_of s 0) []). vm_compute. reflexivity.
  - rewrite <- (E' _ (fun _ st => keys (res_of (lit "Font") (odict st 4))) []). vm_compute. reflexivity.
Qed.
Print Assumptions C21_fonts_refuted.

(** C22: the annotations of each page are, in order, the rectangles of the
    links put on it: a reference names its label, a uri points to the one
    action with that uri.  The destination of a label is its first rectangle
    on the page it was last put on: see [C11_document_labels]. *)
Theorem C22_links : forall load_ttf num round3 descr file p ops level s st,
  written load_ttf num round3 descr file p ops level s st ->
  exists ids action_of, out_pages st ids /\
    forall i pid, nth_error ids i = Some pid ->
      Forall2 (link_ok num round3 st action_of) (annots (odict st pid)) (links (on i (history ops))).
Proof. exact doc_links. Qed.
Print Assumptions C22_links.
Example C22_nonvacuous : exists s st, written ex_load ex_num (fun q => q) (fun _ => []) (fun _ => []) (mkProc [] []) ex_ops 1 s st /\
  map fst (links (on 1 (history ex_ops))) = [LUri (lit "http://x"); LUri (lit "http://x"); LRef (lit "start")] /\
  map fst (links (on 0 (history ex_ops))) = [LUri (lit "http://x")].
Proof.
  destruct ex_written as (s & st & W & E). exists s, st. split; [exact W|]. split; vm_compute; reflexivity.
Qed.

(** C58: the Count of a closed item should be minus the number of items that
    would show if it were opened (PDF 32000, 12.3.3).  It is -1 always, which
    is right when there is one child. *)
Definition right_count (level : Z) (ch : list otree) : option obj :=
  match ch with
  | [] => None
  | _ => Some (OInt (if (1 <? level)%Z then visible (level - 1) ch else - visible (level - 1) ch)%Z)
  end.
Theorem C58_closed_count_partial : forall level ch, (1 < level)%Z \/ (List.length ch <= 1)%nat ->
  item_count level ch = right_count level ch.
Proof.
  intros level ch H. unfold item_count, right_count. destruct ch as [|[t l c] ch]; [reflexivity|].
  destruct (1 <? level)%Z eqn:E; [reflexivity|]. destruct H as [H|H]; [lia|]. destruct ch; [|cbn in H; lia].
  cbn [visible fold_right visible1]. replace (1 <? level - 1)%Z with false by lia. reflexivity.
Qed.
Print Assumptions C58_closed_count_partial.
Theorem C58_closed_count_refuted : exists st d id, 
  build_outlines [catalog] 1 [ONode (lit "A") (lit "a") [ONode (lit "B") (lit "b") []; ONode (lit "C") (lit "c") []]] 1 = st /\
  sget st id = Some d /\ dget (lit "Title") d = Some (OStr (lit "A")) /\
  dget (lit "Count") d = Some (OInt (-1)) /\
  right_count 1 [ONode (lit "B") (lit "b") []; ONode (lit "C") (lit "c") []] = Some (OInt (-2)).
Proof. eexists _, _, 3%nat. split; [reflexivity|]. repeat split; vm_compute; reflexivity. Qed.
Print Assumptions C58_closed_count_refuted.
