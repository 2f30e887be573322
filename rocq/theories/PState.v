(** Properties of the checkpoints of content boxes (C51). *)
From Coq Require Import QArith ZArith Lia.
From Verif Require Import Py Table Content ContentFlow ContentState PContent Copy.
Open Scope list_scope.
Open Scope nat_scope.

Section Checkpoints.
Context {E O S P L K : Type}.
Variable start : E -> res O.
Variable crun : O -> Q -> Q -> Q -> Q -> res (O * Q * bool * list P * list L).
Variable save : O -> S.
Variable restore : O -> S -> O.
(** What an object was made from: runs do not change it, and together with a
    saved state it says how the object goes on. *)
Variable kind : O -> K.
Hypothesis kind_run : forall o x y w h o' ht fin ps ls, crun o x y w h = Ok (o', ht, fin, ps, ls) -> kind o' = kind o.
Hypothesis kind_restore : forall o sv, kind (restore o sv) = kind o.
Hypothesis same_restore : forall o o' sv, kind o = kind o' -> restore o sv = restore o' sv.
Notation content := (@content E O S).
Notation runs := (runs start crun save restore).

(** Boxes with the same section index, and related delayed elements and
    memories: what a run begins from. *)
Definition rp (strict : bool) (h h' : list O) (f f' : @part E S) : Prop :=
  f_elems f' = f_elems f /\ f_cols f' = f_cols f /\ f_gapspec f' = f_gapspec f /\ f_last f' = f_last f /\ f_sindex f' = f_sindex f /\
  Forall2 (rd kind strict h h') (f_sdelayed f) (f_sdelayed f') /\ Forall2 (re kind strict h h') (f_memory f) (f_memory f') /\
  ro (Forall2 (re kind strict h h')) (f_partial f) (f_partial f').
Lemma rf_rp strict h h' f f' : rf kind strict h h' f f' -> rp strict h h' f f'.
Proof. intros (sd & dl & m & p & -> & H1 & H2 & H3 & H4). repeat (split; [reflexivity|]). auto. Qed.
Lemma setup_rp strict h h' f f' a b c d n : rp strict h h' f f' -> sim strict (fun x y => rf kind strict h h' x y /\ stat f x) (setup a b c d n f) (setup a b c d n f').
Proof.
  intros (H1 & H2 & H3 & H4 & H5 & H6 & H7 & H8). unfold setup. rewrite H1, H2, H3, H4, H5. destruct (f_cols f) as [|k] eqn:Ek; [left; reflexivity|]. apply sim_done.
  split; [exists (f_sdelayed f'), (f_sdelayed f'), (f_memory f'), (f_partial f'); repeat split; assumption|].
  unfold stat, single. cbn. rewrite <- Ek. repeat (split; [reflexivity|]). tauto.
Qed.
Definition rc (strict : bool) (c c' : content) : Prop :=
  c_elems c' = c_elems c /\ c_cols c' = c_cols c /\ c_gap c' = c_gap c /\ c_finished c' = c_finished c /\
  ro (rp strict (c_heap c) (c_heap c')) (c_part c) (c_part c') /\ (strict = true -> forall i, c_tries c' i = c_tries c i).
(** The part, once it is made, is of the elements. *)
Definition mine (c : content) : Prop :=
  match c_part c with Some f => f_elems f = c_elems c /\ f_cols f = c_cols c /\ f_gapspec f = c_gap c /\ f_last f = true /\ single f | None => True end.
Lemma run_sim strict fuel x y w h c c' : rc strict c c' -> mine c ->
  sim strict (fun a b => snd b = snd a /\ rc strict (fst a) (fst b) /\ ext kind (c_heap c) (c_heap (fst a)) /\ mine (fst a) /\ c_cols (fst a) = c_cols c /\ c_elems (fst a) = c_elems c /\ c_gap (fst a) = c_gap c /\ c_part (fst a) <> None)
    (run start crun save restore fuel x y w h c) (run start crun save restore fuel x y w h c').
Proof.
  intros (H1 & H2 & H3 & H4 & H5 & H6) Hm. unfold run.
  apply sim_bind with (R := fun a b => rf kind strict (c_heap c) (c_heap c') a b /\ f_elems a = c_elems c /\ f_cols a = c_cols c /\ f_gapspec a = c_gap c /\ f_last a = true /\ single a).
  { unfold mine in Hm. destruct (c_part c) as [f|], (c_part c') as [f'|]; cbn [ro] in H5; try contradiction.
    - eapply sim_weak; [apply (setup_rp strict (c_heap c) (c_heap c')); exact H5|]. intros a b (A1 & A2 & A3 & A4 & A5 & A6). destruct Hm as (M1 & M2 & M3 & M4 & M5). split; [exact A1|]. rewrite A2, A3, A4, A5. auto 10.
    - rewrite H1, H2, H3. unfold new_part. eapply sim_weak; [apply (setup_sim kind strict (c_heap c) (c_heap c')); eexists [], [], [], None; split; [reflexivity|]; repeat split; constructor|].
      intros a b (A1 & A2 & A3 & A4 & A5 & A6). cbn in A2, A3, A4, A5. repeat (split; [assumption|]). apply A6. unfold single. cbn. auto. }
  intros f f' (Hf & F1 & F2 & F3 & F4 & F5).
  eapply sim_bind; [apply (run_part_sim start crun save restore kind kind_run kind_restore same_restore strict fuel f f' [] [] (mkG [] [] (c_heap c) (c_tries c)) (mkG [] [] (c_heap c') (c_tries c'))); [exact Hf|constructor|repeat split; exact H6]|].
  intros [act [[f1 anc] g]] [act' [[f1' anc'] g']] (A1 & A2 & A3 & A4 & A5 & A6 & A7 & A8). unfold same in A1. subst act'. cbn [g_heap] in A5, A6. apply sim_done. cbn [fst snd c_heap c_part].
  destruct A4 as (G1 & G2 & G3). rewrite G1, G2. assert (F : f_miny f1' = f_miny f1 /\ f_cols f1' = f_cols f1 /\ f_maxy f1' = f_maxy f1 /\ f_y f1' = f_y f1) by (rewrite (rf_rest _ _ _ _ _ _ A2); repeat split).
  destruct F as (F6 & F7 & F8 & F9). rewrite F6, F7, F8, F9. split; [reflexivity|].
  split; [|split; [exact A5|split; [|split; [reflexivity|split; [reflexivity|split; [reflexivity|discriminate]]]]]].
  - unfold rc. cbn. rewrite H4. repeat (split; [assumption|]). split; [destruct act; reflexivity|]. split; [apply rf_rp; exact A2|exact G3].
  - unfold mine. cbn. destruct A7 as (S1 & S2 & S3 & S4 & S5). rewrite S1, S2, S3, S4. repeat (split; [assumption|]). auto.
Qed.
Lemma runs_sim strict fuel : forall rs c c', rc strict c c' -> mine c ->
  sim strict (fun a b => snd b = snd a /\ rc strict (fst a) (fst b) /\ ext kind (c_heap c) (c_heap (fst a)) /\ mine (fst a) /\ c_cols (fst a) = c_cols c /\ c_elems (fst a) = c_elems c /\ c_gap (fst a) = c_gap c /\
      (c_part c <> None -> c_part (fst a) <> None))
    (runs fuel rs c) (runs fuel rs c').
Proof.
  induction rs as [|r rs IH]; intros c c' Hc Hm; cbn [PContent.runs].
  - apply sim_done. cbn. split; [reflexivity|]. split; [exact Hc|]. split; [apply ext_refl|]. auto.
  - pose proof Hc as (_ & _ & _ & Hfin & _). rewrite Hfin. destruct (c_finished c).
    { apply sim_done. cbn. split; [reflexivity|]. split; [exact Hc|]. split; [apply ext_refl|]. auto. }
    eapply sim_bind; [apply run_sim; [exact Hc|exact Hm]|]. intros [c1 o] [c1' o'] (A1 & A2 & A3 & A4 & A5 & A6 & A7 & A8). cbn [fst snd] in *. subst o'.
    eapply sim_bind; [apply IH; [exact A2|exact A4]|]. intros [c2 os] [c2' os'] (B1 & B2 & B3 & B4 & B5 & B6 & B7 & B8). cbn [fst snd] in *. subst os'.
    apply sim_done. cbn. split; [reflexivity|]. split; [exact B2|]. split; [eapply ext_trans; eassumption|]. split; [exact B4|]. split; [congruence|]. split; [congruence|]. split; [congruence|]. auto.
Qed.
(** A box that is whole: all its references are to objects. *)
Lemma rc_weak c c' : rc true c c' -> rc false c c'.
Proof.
  assert (Hd : forall h h' (d d' : @delem E S), rd kind true h h' d d' -> rd kind false h h' d d') by (intros h h' d d'; destruct d, d'; cbn; intuition congruence).
  assert (Hds : forall h h' (l l' : list (@delem E S)), Forall2 (rd kind true h h') l l' -> Forall2 (rd kind false h h') l l') by (intros h h' l l'; apply F2_mono; apply Hd).
  assert (He : forall h h' (l l' : @cmem E S), Forall2 (re kind true h h') l l' -> Forall2 (re kind false h h') l l') by (intros h h' l l'; apply F2_mono; intros a b [H1 H2]; split; auto).
  intros (H1 & H2 & H3 & H4 & H5 & H6). repeat (split; [assumption|]). split; [|discriminate].
  destruct (c_part c) as [f|], (c_part c') as [f'|]; cbn [ro] in *; try contradiction; [|exact I].
  destruct H5 as (A1 & A2 & A3 & A4 & A5 & A6 & A7 & A8). repeat (split; [assumption|]). split; [auto|]. split; [auto|].
  destruct (f_partial f), (f_partial f'); cbn [ro] in *; try contradiction; auto.
Qed.
Lemma done_self {A} strict (R : A -> A -> Prop) a b : sim strict R (Done a) (Done b) -> R a b.
Proof. intros [H|[_ [H|H]]]; [exact H|discriminate|discriminate]. Qed.
(** [finished] is set back by the caller; document.py 391. *)
Definition reopen (c : content) : content := mkC (c_elems c) (c_cols c) (c_gap c) (c_part c) false (c_heap c) (c_tries c).

Theorem C51_replay_partial fuel elems gap rs0 c outs0 st rs1 c1 outs1 c2 :
  runs fuel rs0 (fresh_content elems 1 gap) = Done (c, outs0) -> c_finished c = false ->
  get_state c = Done st -> runs fuel rs1 c = Done (c1, outs1) -> set_state st c1 = Done c2 ->
  (forall rs c3 outs c4 outs2, runs fuel rs c = Done (c3, outs) -> runs fuel rs (reopen c2) = Done (c4, outs2) -> outs2 = outs /\ c_finished c4 = c_finished c3) /\
  ((forall i, c_tries c1 i = c_tries c i) -> forall rs,
     match runs fuel rs c with
     | Done (c3, outs) => exists c4, runs fuel rs (reopen c2) = Done (c4, outs) /\ c_finished c4 = c_finished c3
     | Raise e => runs fuel rs (reopen c2) = Raise e
     | Out => runs fuel rs (reopen c2) = Out
     end).
Proof.
  intros H0 Hfin Hst H1 Hset.
  assert (Hc : rc true c c /\ mine c /\ c_cols c = 1).
  { assert (Hf : rc true (fresh_content (O := O) (S := S) elems 1 gap) (fresh_content elems 1 gap)) by (repeat split).
    pose proof (runs_sim true fuel rs0 _ _ Hf I) as H. rewrite H0 in H. apply done_self in H. cbn [fst snd] in H. destruct H as (_ & A1 & _ & A2 & A3 & _). auto. }
  destruct Hc as (Hc & Hm & Hcols).
  pose proof (runs_sim true fuel rs1 _ _ Hc Hm) as H. rewrite H1 in H. apply done_self in H. cbn [fst snd] in H. destruct H as (_ & B1 & B2 & B3 & B4 & B5 & B6 & B7).
  unfold get_state in Hst. destruct (c_part c) as [f|] eqn:Ef; [|discriminate]. injection Hst as <-.
  unfold set_state in Hset. destruct (c_part c1) as [f1|] eqn:Ef1; [|discriminate]. injection Hset as <-.
  assert (Hrc : forall strict, (strict = true -> forall i, c_tries c1 i = c_tries c i) ->
     rc strict c (reopen (mkC (c_elems c1) (c_cols c1) (c_gap c1) (Some (with_section f1 (f_sindex f) (f_sdelayed f) (f_memory f))) (c_finished c1) (c_heap c1) (c_tries c1)))).
  { intros strict Ht. unfold rc, reopen. cbn [c_elems c_cols c_gap c_finished c_part c_heap c_tries]. rewrite Ef. cbn [ro].
    assert (Hc' : rc strict c c) by (destruct strict; [exact Hc|apply rc_weak; exact Hc]). destruct Hc' as (_ & _ & _ & _ & Hp & _). rewrite Ef in Hp. cbn [ro] in Hp.
    destruct Hp as (P1 & P2 & P3 & P4 & P5 & P6 & P7 & P8). unfold mine in Hm, B3. rewrite Ef in Hm. rewrite Ef1 in B3. destruct Hm as (M1 & M2 & M3 & M4 & M5). destruct B3 as (N1 & N2 & N3 & N4 & N5).
    assert (Q1 : f_partial f = None) by (apply M5; congruence). assert (Q2 : f_partial f1 = None) by (apply N5; congruence).
    split; [assumption|]. split; [assumption|]. split; [assumption|]. split; [congruence|]. split; [|exact Ht]. unfold rp. cbn [with_section f_elems f_cols f_gapspec f_last f_sindex f_sdelayed f_memory f_partial].
    split; [congruence|]. split; [congruence|]. split; [congruence|]. split; [congruence|]. split; [reflexivity|].
    split; [eapply rds_ext; [apply ext_refl|exact B2|exact P6]|]. split; [eapply res_ext; [apply ext_refl|exact B2|exact P7]|]. rewrite Q1, Q2. exact I. }
  split.
  - intros rs c3 outs c4 outs2 E1 E2. pose proof (runs_sim false fuel rs _ _ (Hrc false ltac:(discriminate)) Hm) as H. rewrite E1, E2 in H. apply done_self in H. cbn [fst snd] in H. destruct H as (D1 & D2 & _). split; [exact D1|apply D2].
  - intros Ht rs. pose proof (runs_sim true fuel rs _ _ (Hrc true (fun _ => Ht)) Hm) as [H|[H _]]; [|discriminate].
    destruct (runs fuel rs c) as [[c3 outs]|e|] eqn:E1; match type of H with match ?e with _ => _ end => destruct e as [[c4 outs2]|e'|] end; try contradiction; try (subst; reflexivity); try reflexivity.
    cbn [fst snd] in H. destruct H as (D1 & D2 & _). subst outs2. exists c4. split; [reflexivity|apply D2].
Qed.
End Checkpoints.
Print Assumptions C51_replay_partial.

(** Paragraphs that keep their text and save the lines left. *)
Definition ex_save (o : nat * nat) : nat := snd o.
Definition ex_back (o : nat * nat) (n : nat) : nat * nat := (fst o, n).
Definition ex_runs3 := runs ex_start ex_crun ex_save ex_back.
(** The number and the lines left of each paragraph when it is run, and the
    lines it shows; images by their width. *)
Definition ex_shown (outs : list (@output (nat * nat) (nat * nat) nat)) : list (list (nat * nat * nat)) :=
  map (fun o => flat_map (fun p => match p with PlLeaf _ _ _ _ _ b _ _ _ l => map (fun x => (b, snd x)) l | PlImage _ _ _ _ _ iw _ => [(0, 0, Z.to_nat (Qnum iw))] end) (o_parts o)) outs.
(** Text, a box of two columns, and text; a checkpoint after the first page, two
    more pages, back to the checkpoint, and the pages again. *)
Definition ex_saved : list (@elem (nat * nat)) :=
  [Leaf ex_style (1, 3); Child ex_style 2 (Some 10%Q) [Leaf ex_style (2, 14); Leaf ex_style (3, 6)]; Leaf ex_style (4, 9)].
Example C51_applies :
  (forall o x y w h o' ht fin ps ls, ex_crun o x y w h = Ok (o', ht, fin, ps, ls) -> fst o' = fst o) /\
  (forall o sv, fst (ex_back o sv) = fst o) /\ (forall o o' sv, fst o = fst o' -> ex_back o sv = ex_back o' sv) /\
  match ex_runs3 60 [mkRect 0 500 100 60] (fresh_content ex_saved 1 None) with
  | Done (c, outs0) =>
      match get_state c, ex_runs3 60 [mkRect 0 500 100 70; mkRect 0 500 100 40] c with
      | Done st, Done (c1, outs1) =>
          match set_state st c1 with
          | Done c2 =>
              match ex_runs3 60 (repeat (mkRect 0 500 100 50) 4) (reopen c2) with
              | Done (c3, outs2) => c_finished c = false /\ ex_shown outs0 = [[(1, 3, 3); (2, 14, 2); (2, 12, 2)]] /\
                                    ex_shown outs1 = [[(2, 10, 7); (2, 3, 3); (3, 6, 3)]; [(3, 3, 2); (3, 1, 1); (4, 9, 1)]] /\
                                    ex_shown outs2 = [[(2, 10, 5); (2, 5, 5); (3, 6, 0)]; [(3, 6, 3); (3, 3, 3); (4, 9, 1)]; [(4, 8, 5)]; [(4, 3, 3)]]
              | _ => False
              end
          | _ => False
          end
      | _, _ => False
      end
  | _ => False
  end.
Proof.
  split; [intros o x y w h o' ht fin ps ls H; injection H; intros; subst; reflexivity|]. split; [reflexivity|]. split; [intros [a b] [a' b'] sv H; cbn in *; subst; reflexivity|].
  vm_compute. repeat split.
Qed.

(** A box of two columns, an image that waits for room, and a box: the place
    reached in the inner box is not in the state.  After going back, its text is
    shown from the beginning. *)
Definition ex_wait : list (@elem (nat * nat)) := [Leaf ex_style (1, 2); Image ex_flow 0 100 80; Child ex_style 1 None [Leaf ex_style (2, 30)]].
Theorem C51_partial_memory_refuted :
  match ex_runs3 60 [mkRect 0 500 210 60] (fresh_content ex_wait 2 (Some 10%Q)) with
  | Done (c, outs0) =>
      match get_state c, ex_runs3 60 [mkRect 0 500 210 100] c with
      | Done st, Done (c1, outs1) =>
          match set_state st c1 with
          | Done c2 =>
              match ex_runs3 60 [mkRect 0 500 210 100] (reopen c2) with
              | Done (c3, outs2) => ex_shown outs1 = [[(0, 0, 100); (2, 27, 1); (2, 26, 10)]] /\ ex_shown outs2 = [[(0, 0, 100); (2, 30, 1); (2, 29, 10)]]
              | _ => False
              end
          | _ => False
          end
      | _, _ => False
      end
  | _ => False
  end.
Proof. vm_compute. split; reflexivity. Qed.
Print Assumptions C51_partial_memory_refuted.

(** ** Sharing *)
Section Sharing.
Context {Key A : Type}.
Notation mem := (@mem Key A).
(** A memory after any changes of the lists and dicts in [l], and of those made
    later; tuples do not change. *)
Definition changed (l : list nat) (h h2 : mem) : Prop := still h h2 /\ forall i, i < length h -> ~ In i l -> nth_error h2 i = nth_error h i.
Definition disjoint (a b : list nat) : Prop := forall i, In i a -> ~ In i b.

(** The state has what the box has, in lists and dicts of its own: later changes
    of the box do not reach the state, nor those of the state the box. *)
Theorem C51_get_shares_nothing n (h : mem) b t : seen n h b = Some t ->
  exists h1 st, box_get n h b = Some (h1, st) /\ seen n h1 st = Some t /\ seen n h1 b = Some t /\ disjoint (box_cells n h1 st) (box_cells n h1 b) /\
    (forall h2, changed (box_cells n h1 b) h1 h2 -> seen n h2 st = Some t) /\ (forall h2, changed (box_cells n h1 st) h1 h2 -> seen n h2 b = Some t).
Proof.
  intros Hb. destruct (box_copy n h b t Hb) as (h1 & st & E & (x & X) & R & C). exists h1, st. split; [exact E|]. split; [exact R|].
  assert (Hold : forall l, In l (box_cells n h b) -> exists c, nth_error h l = Some c) by (intros l Hl; unfold box_cells in Hl; apply in_app_or in Hl; destruct Hl as [Hl|Hl]; eapply cells_in; exact Hl).
  assert (Hb1 : seen n h1 b = Some t) by (apply (seen_same n h); [exact Hb|rewrite X; apply prefix_still|intros l Hl; destruct (Hold l Hl) as [c Hc]; rewrite Hc, X; apply prefix_nth; exact Hc]).
  split; [exact Hb1|].
  assert (Hcells : box_cells n h1 b = box_cells n h b).
  { unfold box_cells. unfold seen in Hb. destruct (read n h (b_delayed b)) as [td|] eqn:Ed; [|discriminate]. destruct (read n h (b_memory b)) as [tm|] eqn:Em; [|discriminate]. rewrite X. destruct (read_grow n h x _ _ Ed) as [_ ->]. destruct (read_grow n h x _ _ Em) as [_ ->]. reflexivity. }
  assert (Hdis : disjoint (box_cells n h1 st) (box_cells n h1 b)).
  { intros i Hi Hj. rewrite Forall_forall in C. specialize (C i Hi). rewrite Hcells in Hj. destruct (Hold i Hj) as [c Hc]. assert (i < length h) by (apply nth_error_Some; congruence). lia. }
  split; [exact Hdis|].
  assert (Hlen : forall i, In i (box_cells n h1 b) -> i < length h1) by (intros i Hi; rewrite Hcells in Hi; destruct (Hold i Hi) as [c Hc]; assert (i < length h) by (apply nth_error_Some; congruence); rewrite X, app_length; lia).
  split; intros h2 [Hs Hch].
  - apply (seen_same n h1); [exact R|exact Hs|]. intros l Hl. rewrite Forall_forall in C. specialize (C l Hl). apply Hch; [lia|]. apply Hdis. exact Hl.
  - apply (seen_same n h1); [exact Hb1|exact Hs|]. intros l Hl. apply Hch; [apply Hlen; exact Hl|]. intros Hi. exact (Hdis l Hi Hl).
Qed.
(** The same when a state is set; and a state that is got and set gives back
    what the box had when it was got, whatever happened to the box meanwhile. *)
Theorem C51_set_restores n (h h2 : mem) b t h1 st : seen n h b = Some t -> box_get n h b = Some (h1, st) -> changed (box_cells n h1 b) h1 h2 ->
  exists h3 b2, box_set n h2 st = Some (h3, b2) /\ seen n h3 b2 = Some t /\ disjoint (box_cells n h3 b2) (box_cells n h3 st) /\
    (forall h4, changed (box_cells n h3 st) h3 h4 -> seen n h4 b2 = Some t).
Proof.
  intros Hb Hg Hch. destruct (C51_get_shares_nothing n h b t Hb) as (h1' & st' & E & _ & _ & _ & H & _). rewrite E in Hg. injection Hg as <- <-.
  specialize (H h2 Hch). destruct (C51_get_shares_nothing n h2 st' t H) as (h3 & b2 & E2 & R2 & _ & D2 & H2 & _). exists h3, b2. auto.
Qed.
End Sharing.
Print Assumptions C51_get_shares_nothing.
Print Assumptions C51_set_restores.

(** Two delayed elements (a paragraph with its state, an image) and a memory of
    one nested box; keys and atoms are numbers. *)
Definition ex_mem : @mem nat nat :=
  [CDict [(1, VAtom 10); (2, VRef 1)]; CDict [(3, VAtom 11); (4, VAtom 12)]; CDict [(5, VAtom 13); (2, VRef 1)]; CList [VRef 0; VRef 2];
   CDict [(6, VAtom 2); (7, VRef 5)]; CList [VRef 0]; CList [VRef 4]].
Example C51_sharing_applies :
  exists h1 st, box_get 9 ex_mem (mkBox 3 (VRef 3) (VRef 6)) = Some (h1, st) /\ box_cells 9 h1 st = [11; 8; 7; 10; 9; 16; 15; 14; 13; 12] /\
    seen 9 h1 st = Some (3, TList [TDict [(1, TAtom 10); (2, TDict [(3, TAtom 11); (4, TAtom 12)])]; TDict [(5, TAtom 13); (2, TDict [(3, TAtom 11); (4, TAtom 12)])]],
                         TList [TDict [(6, TAtom 2); (7, TList [TDict [(1, TAtom 10); (2, TDict [(3, TAtom 11); (4, TAtom 12)])]])]]).
Proof. eexists _, _. split; [vm_compute; reflexivity|]. split; vm_compute; reflexivity. Qed.
