(** Model of [PDFImage.parse_jpg]: pdfme/image.py 82-147. *)
From Verif Require Import Py.
From Coq Require Import String.
Open Scope N_scope.
Open Scope list_scope.

Record jpeg := mkJpeg { j_depth : N; j_height : N; j_width : N; j_colspace : bytes }.

(** image.py 104-108: markers without a length field that are skipped. *)
Definition skipped (m : N) : bool :=
  (m =? 0xC8) || ((0xD0 <=? m) && (m <=? 0xD9)) || ((0xF0 <=? m) && (m <=? 0xFD)).
(** image.py 113-118: start of frame markers. *)
Definition is_sof (m : N) : bool :=
  ((0xC0 <=? m) && (m <=? 0xC3)) || ((0xC5 <=? m) && (m <=? 0xC7)) ||
  ((0xC9 <=? m) && (m <=? 0xCB)) || ((0xCD <=? m) && (m <=? 0xCF)).

(** image.py 121-126. *)
Definition colspace_of (layers : N) : bytes :=
  if layers =? 3 then lit "/DeviceRGB" else if layers =? 4 then lit "/DeviceCMYK"
  else lit "/DeviceGray".

(** image.py 97-128: the loop, on the bytes from the current position.
    [bytes_.read(n)] returns what is left when there is less.  Exceptions are
    inner exceptions; [parse_jpg] turns them into ValueError. *)
Fixpoint jpg_loop (fuel : nat) (b : bytes) : res jpeg :=
  match fuel with
  | O => Err OutOfFuel
  | S f =>
      match b with
      | hi :: lo :: r =>
          if negb (hi =? 0xFF) || (lo <? 0xC0) then Err SyntaxErr
          else if lo =? 0xDA then Err SyntaxErr
          else if skipped lo then jpg_loop f r
          else match r with
               | s1 :: s2 :: r2 =>
                   let size := 256 * s1 + s2 in
                   let n := if 2 <? size then N.to_nat (size - 2) else O in
                   let data := firstn n r2 in
                   if is_sof lo then
                     match data with
                     | depth :: h1 :: h2 :: w1 :: w2 :: layers :: _ =>
                         Ok (mkJpeg depth (256 * h1 + h2) (256 * w1 + w2) (colspace_of layers))
                     | _ => Err StructError
                     end
                   else jpg_loop f (skipn n r2)
               | _ => Err StructError
               end
      | _ => Err StructError
      end
  end.

(** image.py 94-132: every exception of the loop becomes a ValueError.  The
    model's own [OutOfFuel] is kept apart. *)
Definition parse_jpg (b : bytes) : res jpeg :=
  match jpg_loop (S (List.length b)) b with
  | Ok j => Ok j
  | Err OutOfFuel => Err OutOfFuel
  | Err _ => Err ValueError
  end.

(** Specification: a chain of JPEG marker segments (ITU T.81, B.1.1 and B.2.2,
    without fill bytes) up to and including the parameters of a frame header.
    Markers RSTm, SOI, EOI, and the reserved JPG, JPGn without parameters
    stand alone. *)
Definition standalone (m : N) : Prop := m = 0xC8 \/ 0xD0 <= m <= 0xD9 \/ 0xF0 <= m <= 0xFD.
Definition frame_marker (m : N) : Prop :=
  0xC0 <= m <= 0xCF /\ m <> 0xC4 /\ m <> 0xC8 /\ m <> 0xCC.
Inductive jpeg_chain : bytes -> jpeg -> Prop :=
| chain_alone m rest j : standalone m -> jpeg_chain rest j ->
    jpeg_chain (0xFF :: m :: rest) j
| chain_segment m s1 s2 payload rest j : 0xC0 <= m -> ~ standalone m -> ~ frame_marker m ->
    m <> 0xDA ->
    (N.of_nat (List.length payload) = 256 * s1 + s2 - 2) -> jpeg_chain rest j ->
    jpeg_chain (0xFF :: m :: s1 :: s2 :: payload ++ rest) j
| chain_frame m s1 s2 depth h1 h2 w1 w2 layers rest : frame_marker m ->
    8 <= 256 * s1 + s2 ->
    jpeg_chain (0xFF :: m :: s1 :: s2 :: depth :: h1 :: h2 :: w1 :: w2 :: layers :: rest)
      (mkJpeg depth (256 * h1 + h2) (256 * w1 + w2)
         (if layers =? 3 then lit "/DeviceRGB" else if layers =? 4 then lit "/DeviceCMYK"
          else lit "/DeviceGray")).

Lemma skipped_spec m : skipped m = true <-> standalone m.
Proof. unfold skipped, standalone. lia. Qed.
Lemma sof_spec m : is_sof m = true <-> frame_marker m.
Proof. unfold is_sof, frame_marker. lia. Qed.

Lemma seg_size size : N.of_nat (if 2 <? size then N.to_nat (size - 2) else O) = size - 2.
Proof. destruct (2 <? size) eqn:E; lia. Qed.

Lemma firstn_six {A} n (l : list A) a b c d e f rest :
  l = a :: b :: c :: d :: e :: f :: rest -> (6 <= n)%nat ->
  exists r, firstn n l = a :: b :: c :: d :: e :: f :: r.
Proof.
  intros -> H. do 6 (destruct n as [|n]; [lia|]). cbn [firstn]. eauto.
Qed.

Lemma jpg_loop_complete b j : jpeg_chain b j -> forall fuel, (List.length b < fuel)%nat ->
  jpg_loop fuel b = Ok j.
Proof.
  induction 1 as [m rest j Hm Hc IH|m s1 s2 payload rest j Hm Hs Hf Hda Hlen Hc IH
                 |m s1 s2 depth h1 h2 w1 w2 layers rest Hf Hsz]; intros fuel Hfuel;
    (destruct fuel as [|fuel]; [lia|]); cbn [jpg_loop].
  - change (negb (0xFF =? 0xFF)) with false. cbn [orb].
    replace (m <? 0xC0) with false by (unfold standalone in Hm; lia).
    replace (m =? 0xDA) with false by (unfold standalone in Hm; lia).
    apply skipped_spec in Hm. rewrite Hm. apply IH. cbn in Hfuel. lia.
  - change (negb (0xFF =? 0xFF)) with false. cbn [orb].
    replace (m <? 0xC0) with false by lia. replace (m =? 0xDA) with false by lia.
    rewrite <- skipped_spec in Hs. apply not_true_is_false in Hs. rewrite Hs.
    rewrite <- sof_spec in Hf. apply not_true_is_false in Hf. rewrite Hf. cbv zeta.
    set (n := if 2 <? 256 * s1 + s2 then _ else _).
    assert (Hn : n = List.length payload).
    { pose proof (seg_size (256 * s1 + s2)) as E. fold n in E. lia. }
    rewrite Hn. rewrite skipn_app, skipn_all, Nat.sub_diag. cbn [app skipn].
    apply IH. cbn in Hfuel. rewrite app_length in Hfuel. lia.
  - change (negb (0xFF =? 0xFF)) with false. cbn [orb].
    replace (m <? 0xC0) with false by (unfold frame_marker in Hf; lia).
    replace (m =? 0xDA) with false by (unfold frame_marker in Hf; lia).
    replace (skipped m) with false.
    2:{ symmetry. apply not_true_is_false. rewrite skipped_spec. unfold standalone, frame_marker in *. lia. }
    apply sof_spec in Hf. rewrite Hf. cbv zeta.
    set (n := if 2 <? 256 * s1 + s2 then _ else _).
    assert (Hn : (6 <= n)%nat).
    { pose proof (seg_size (256 * s1 + s2)) as E. fold n in E. lia. }
    destruct (firstn_six n _ depth h1 h2 w1 w2 layers rest eq_refl Hn) as [r ->]. reflexivity.
Qed.

Lemma firstn_split {A} n (l : list A) x r : firstn n l = x ++ r -> (List.length x <= n)%nat /\ exists rest, l = x ++ rest.
Proof.
  intros H. split.
  - assert (List.length (firstn n l) <= n)%nat by apply firstn_le_length. rewrite H, app_length in H0. lia.
  - exists (r ++ skipn n l). rewrite <- (firstn_skipn n l) at 1. rewrite H, <- app_assoc. reflexivity.
Qed.

Lemma jpg_loop_short fuel b : (List.length b < 2)%nat ->
  jpg_loop fuel b = Err OutOfFuel \/ jpg_loop fuel b = Err StructError.
Proof.
  destruct fuel; [auto|]. destruct b as [|x [|y b]]; cbn; [auto|auto|lia].
Qed.

Lemma jpg_loop_sound fuel : forall b j, jpg_loop fuel b = Ok j -> jpeg_chain b j.
Proof.
  induction fuel as [|fuel IH]; intros b j H; [discriminate|].
  cbn [jpg_loop] in H. destruct b as [|hi [|lo r]]; try discriminate.
  destruct (negb (hi =? 0xFF) || (lo <? 0xC0)) eqn:E1; [discriminate|].
  destruct (lo =? 0xDA) eqn:E2; [discriminate|].
  assert (hi = 0xFF) by lia. subst hi.
  destruct (skipped lo) eqn:E3.
  - apply chain_alone; [now apply skipped_spec|auto].
  - destruct r as [|s1 [|s2 r2]]; try discriminate. cbv zeta in H.
    set (n := if 2 <? 256 * s1 + s2 then _ else _) in *.
    pose proof (seg_size (256 * s1 + s2)) as Hn. fold n in Hn.
    destruct (is_sof lo) eqn:E4.
    + destruct (firstn n r2) as [|x0 [|x1 [|x2 [|x3 [|x4 [|x5 r]]]]]] eqn:E5; try discriminate.
      injection H as <-.
      apply (firstn_split _ _ [x0; x1; x2; x3; x4; x5]) in E5 as [Hl [rest ->]].
      apply chain_frame; [now apply sof_spec|]. cbn in Hl. lia.
    + assert (Hr : (n <= List.length r2)%nat).
      { destruct (Nat.le_gt_cases n (List.length r2)) as [Hle|Hgt]; [exact Hle|].
        rewrite skipn_all2 in H by lia. destruct fuel; discriminate. }
      rewrite <- (firstn_skipn n r2). apply chain_segment; auto.
      * lia.
      * rewrite <- skipped_spec, E3. discriminate.
      * rewrite <- sof_spec, E4. discriminate.
      * lia.
      * rewrite firstn_length_le by exact Hr. exact Hn.
Qed.

Lemma jpg_loop_fuel fuel : forall b, (List.length b < fuel)%nat -> jpg_loop fuel b <> Err OutOfFuel.
Proof.
  induction fuel as [|fuel IH]; intros b Hf; [lia|].
  cbn [jpg_loop]. destruct b as [|hi [|lo r]]; try discriminate.
  destruct (_ || _); [discriminate|]. destruct (lo =? 0xDA); [discriminate|].
  cbn [List.length] in Hf.
  destruct (skipped lo); [apply IH; lia|].
  destruct r as [|s1 [|s2 r2]]; try discriminate. cbv zeta.
  set (n := if 2 <? 256 * s1 + s2 then _ else _). clearbody n.
  destruct (is_sof lo).
  - destruct (firstn n r2) as [|x0 [|x1 [|x2 [|x3 [|x4 [|x5 r]]]]]]; discriminate.
  - apply IH. cbn [List.length] in Hf. pose proof (skipn_length n r2). lia.
Qed.

Theorem parse_jpg_spec b :
  (forall j, parse_jpg b = Ok j <-> jpeg_chain b j) /\
  ((~ exists j, jpeg_chain b j) -> parse_jpg b = Err ValueError).
Proof.
  assert (Hf := jpg_loop_fuel (S (List.length b)) b (Nat.lt_succ_diag_r _)).
  assert (Hiff : forall j, parse_jpg b = Ok j <-> jpeg_chain b j).
  { intros j. unfold parse_jpg. split.
    - destruct (jpg_loop _ b) as [j'|e] eqn:E; [|destruct e; discriminate].
      intros [= <-]. eapply jpg_loop_sound, E.
    - intros H. rewrite (jpg_loop_complete _ _ H) by lia. reflexivity. }
  split; [exact Hiff|].
  intros Hno. unfold parse_jpg in *. destruct (jpg_loop _ b) as [j|e] eqn:E.
  - exfalso. apply Hno. exists j. apply Hiff. reflexivity.
  - destruct e; congruence.
Qed.

Theorem jpeg_chain_functional b j1 j2 : jpeg_chain b j1 -> jpeg_chain b j2 -> j1 = j2.
Proof.
  intros H1 H2. apply (proj1 (parse_jpg_spec b)) in H1. apply (proj1 (parse_jpg_spec b)) in H2. congruence.
Qed.
