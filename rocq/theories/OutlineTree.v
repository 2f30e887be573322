(** Model of the outlines: pdfme/pdf.py 632-638 (collecting) and 1002-1056
    (writing). *)
From Verif Require Import Py Parser StreamProofs Store PageTree.
From Coq Require Import String.
Open Scope list_scope.

(** An entry of [self.outlines]: text, label and children.  The [level] key,
    which nothing reads after insertion, is left out, and a missing
    'children' key is the empty list (pdf.py 1031: [get('children', [])]). *)
Inductive otree := ONode (title label : str) (children : list otree).

(** ** Collecting (pdf.py 633-638) *)

(** Follow [n] times the last item, then append; IndexError when a list on
    the way is empty. *)
Fixpoint add_at (n : nat) (x : otree) (f : list otree) : res (list otree) :=
  match n with
  | O => Ok (f ++ [x])
  | S m =>
      match rev f with
      | [] => Err IndexError
      | ONode t l ch :: init =>
          match add_at m x ch with
          | Ok ch' => Ok (rev init ++ [ONode t l ch'])
          | Err e => Err e
          end
      end
  end.
(** [for _ in range(level - 1)]. *)
Definition add_outline (level : Z) (title label : str) (f : list otree) : res (list otree) :=
  add_at (Z.to_nat (level - 1)) (ONode title label []) f.

(** ** Writing (pdf.py 1002-1056) *)

(** 1014-1038 for the siblings [l]; [node t st prev] writes one of them and
    returns the store, its id and what it adds to [count]. *)
Definition siblings (node : otree -> store -> option nat -> store * nat * Z) :=
  fix loop (l : list otree) (st : store) (prev : option nat) (count : Z) : store * option nat * Z :=
    match l with
    | [] => (st, prev, count)
    | t :: r => let '(st', id, c) := node t st prev in loop r st' (Some id) (count + c)%Z
    end.
(** 1040: [parent['Last'] = obj.id]; the list is never empty. *)
Definition set_last (st : store) (parent : nat) (last : option nat) : store :=
  match last with Some i => sset st parent (lit "Last") (oref i) | None => st end.

Definition new_item (title label : str) (parent : nat) : dict :=
  [(lit "Title", OStr title); (lit "Parent", oref parent); (lit "Dest", OStr label)].

Fixpoint outline_node (level : Z) (parent : nat) (t : otree) (st : store) (prev : option nat)
    {struct t} : store * nat * Z :=
  match t with
  | ONode title label ch =>
      let '(id, st1) := sadd st (new_item title label parent) in
      let st2 := match prev with
                 | Some p => sset (sset st1 id (lit "Prev") (oref p)) p (lit "Next") (oref id)
                 | None => sset st1 parent (lit "First") (oref id)
                 end in
      match ch with
      | [] => (st2, id, 1%Z)
      | _ =>
          let '(st3, last, n) := siblings (outline_node (level - 1) id) ch st2 None 0%Z in
          let st4 := set_last st3 id last in
          if (1 <? level)%Z then (sset st4 id (lit "Count") (OInt n), id, (1 + n)%Z)
          else (sset st4 id (lit "Count") (OInt (-1)), id, 1%Z)
      end
  end.
(** 1002-1042 [_build_outlines_tree]. *)
Definition build_outlines_tree (st : store) (l : list otree) (parent : nat) (level : Z) : store * Z :=
  let '(st', last, n) := siblings (outline_node level parent) l st None 0%Z in
  (set_last st' parent last, n).

(** 1044-1056 [_build_outlines]. *)
Definition build_outlines (st : store) (root : nat) (outlines : list otree) (level : Z) : store :=
  match outlines with
  | [] => st
  | _ =>
      let '(id, st1) := sadd st [(lit "Type", name "/Outlines")] in
      let st2 := sset st1 root (lit "PageMode") (name "/UseOutlines") in
      let st3 := sset st2 root (lit "Outlines") (oref id) in
      let '(st4, n) := build_outlines_tree st3 outlines id level in
      sset st4 id (lit "Count") (OInt n)
  end.

(** ** Specification *)

(** The outlines in reading order, each with its depth. *)
Fixpoint preorder1 (depth : nat) (t : otree) : list (nat * (str * str)) :=
  match t with ONode title label ch => (depth, (title, label)) :: flat_map (preorder1 (S depth)) ch end.
Definition preorder (depth : nat) (f : list otree) := flat_map (preorder1 depth) f.

(** Number of items visible when the items of the first [level - 1] levels
    are open. *)
Fixpoint visible1 (level : Z) (t : otree) : Z :=
  match t with
  | ONode _ _ ch =>
      1 + (if (1 <? level)%Z then fold_right (fun t n => visible1 (level - 1) t + n) 0 ch else 0)
  end%Z.
Definition visible (level : Z) (f : list otree) : Z := fold_right (fun t n => (visible1 level t + n)%Z) 0%Z f.

(** Count of an item: open items have the number of visible items below,
    closed ones -1, leaves none. *)
Definition item_count (level : Z) (ch : list otree) : option obj :=
  match ch with
  | [] => None
  | _ => Some (OInt (if (1 <? level)%Z then visible (level - 1) ch else -1)%Z)
  end.

(** Walking the siblings: [entry] is the parent's First or the previous
    item's Next, [last] the id of the last sibling and [ids] all ids met, the
    ones of the descendants included. *)
Inductive chain (st : store) : Z -> nat -> option nat -> option obj -> list otree -> option nat -> list nat -> Prop :=
| chain_nil level parent prev : chain st level parent prev None [] prev []
| chain_cons level parent prev id d title label ch rest clast cids last ids :
    sget st id = Some d ->
    dget (lit "Title") d = Some (OStr title) ->
    dget (lit "Dest") d = Some (OStr label) ->
    dget (lit "Parent") d = Some (oref parent) ->
    dget (lit "Prev") d = option_map oref prev ->
    dget (lit "Count") d = item_count level ch ->
    chain st (level - 1)%Z id None (dget (lit "First") d) ch clast cids ->
    dget (lit "Last") d = option_map oref clast ->
    chain st level parent (Some id) (dget (lit "Next") d) rest last ids ->
    chain st level parent prev (Some (oref id)) (ONode title label ch :: rest) last (id :: cids ++ ids).

(** ** Collecting keeps the reading order *)

Lemma preorder_app d f g : preorder d (f ++ g) = preorder d f ++ preorder d g.
Proof. apply flat_map_app. Qed.

Lemma add_at_preorder n : forall x f f' d t l, x = ONode t l [] -> add_at n x f = Ok f' ->
  preorder d f' = preorder d f ++ [((d + n)%nat, (t, l))].
Proof.
  induction n as [|n IH]; intros x f f' d t l -> H; cbn [add_at] in H.
  - injection H as <-. rewrite preorder_app. cbn. now rewrite Nat.add_0_r.
  - destruct (rev f) as [|[t0 l0 ch] init] eqn:E; [discriminate|].
    destruct (add_at n _ ch) as [ch'|] eqn:E2; [|discriminate]. injection H as <-.
    assert (Hf : f = rev init ++ [ONode t0 l0 ch]) by (rewrite <- (rev_involutive f), E; reflexivity).
    rewrite Hf, !preorder_app. cbn [preorder flat_map preorder1]. rewrite !app_nil_r.
    fold (preorder (S d) ch). fold (preorder (S d) ch').
    rewrite (IH _ _ _ (S d) t l eq_refl E2). rewrite <- app_assoc. cbn [app].
    replace (S d + n)%nat with (d + S n)%nat by lia. reflexivity.
Qed.

(** Depth of the last outline in reading order (0 when there is none). *)
Definition last_depth (f : list otree) : nat := fst (last (preorder 1 f) (0%nat, ([], []))).

Lemma last_dep_node d t l ch : fst (last (preorder1 d (ONode t l ch)) (0%nat, ([], []))) =
  match ch with [] => d | _ => fst (last (preorder (S d) ch) (0%nat, ([], []))) end.
Proof.
  cbn [preorder1]. destruct ch as [|[t2 l2 c2] ch]; [reflexivity|].
  fold (preorder (S d) (ONode t2 l2 c2 :: ch)). cbn [preorder flat_map preorder1 app].
  reflexivity.
Qed.
Lemma last_app_ne {A} (a b : list A) d : b <> [] -> last (a ++ b) d = last b d.
Proof.
  intros Hb. induction a as [|x a IH]; [reflexivity|]. cbn [app].
  destruct (a ++ b) eqn:E; [destruct a; [cbn in E; congruence|discriminate]|]. exact IH.
Qed.

Lemma otree_nested (P : otree -> Prop) :
  (forall t l ch, Forall P ch -> P (ONode t l ch)) -> forall t, P t.
Proof.
  intros H. fix IH 1. intros [t l ch]. apply H. induction ch; constructor; auto.
Qed.

Lemma preorder_depth t : forall d x, In x (preorder1 d t) -> (d <= fst x)%nat.
Proof.
  induction t as [t l ch IH] using otree_nested. intros d x Hx. cbn [preorder1] in Hx.
  destruct Hx as [<-|Hx]; [cbn; lia|]. apply in_flat_map in Hx as (t' & Ht & Hx).
  rewrite Forall_forall in IH. specialize (IH t' Ht (S d) x Hx). lia.
Qed.
Lemma last_depth_ge d f : f <> [] -> (d <= fst (last (preorder d f) (0%nat, ([], []))))%nat.
Proof.
  intros Hf. assert (Hne : preorder d f <> []).
  { destruct f as [|[t l ch] f]; [congruence|discriminate]. }
  destruct (exists_last Hne) as (l' & x & E). rewrite E, last_last.
  assert (Hin : In x (preorder d f)) by (rewrite E; apply in_or_app; right; now left).
  apply in_flat_map in Hin as (t & _ & Hin). eapply preorder_depth, Hin.
Qed.

Lemma add_at_ok n : forall x f d, (1 <= d)%nat ->
  (exists f', add_at n x f = Ok f') <->
  (n = O \/ (n + d <= S (fst (last (preorder d f) (0%nat, ([], [])))))%nat).
Proof.
  induction n as [|n IH]; intros x f d Hd; cbn [add_at].
  - split; [auto|eauto].
  - destruct (rev f) as [|[t0 l0 ch] init] eqn:E.
    + assert (f = []) by (rewrite <- (rev_involutive f), E; reflexivity). subst f. cbn.
      split; [intros [f' H]; discriminate|lia].
    + assert (Hf : f = rev init ++ [ONode t0 l0 ch]) by (rewrite <- (rev_involutive f), E; reflexivity).
      rewrite Hf, preorder_app. cbn [preorder flat_map]. rewrite app_nil_r.
      rewrite last_app_ne by (cbn; discriminate). rewrite last_dep_node.
      specialize (IH x ch (S d) ltac:(lia)).
      assert (Hiff : (exists f', match add_at n x ch with
        | Ok ch' => Ok (rev init ++ [ONode t0 l0 ch']) | Err e => Err e end = Ok f') <->
        (exists f', add_at n x ch = Ok f')).
      { destruct (add_at n x ch); split; intros [f' H]; eauto; discriminate. }
      rewrite Hiff, IH. destruct ch as [|c ch].
      2:{ pose proof (last_depth_ge (S d) (c :: ch) ltac:(discriminate)). lia. }
      cbn [preorder flat_map last fst].
      split; [intros [->|H]; [right; lia|lia]|]. intros [H|H]; [lia|]. left. lia.
Qed.

(** A history of insertions; a failed one leaves the outlines as they were. *)
Definition outlines_run (f : list otree) (ops : list (Z * (str * str))) : list otree :=
  fold_left (fun f op => match add_outline (fst op) (fst (snd op)) (snd (snd op)) f with
                         | Ok f' => f' | Err _ => f end) ops f.
(** What the history means: an insertion at [level] is accepted when the
    level is at most 1 or at most one more than the depth of the last accepted
    one. *)
Fixpoint accepted (depth : nat) (ops : list (Z * (str * str))) : list (nat * (str * str)) :=
  match ops with
  | [] => []
  | (level, x) :: r =>
      if (level <=? 1)%Z then (1%nat, x) :: accepted 1 r
      else if (level <=? Z.of_nat depth + 1)%Z then (Z.to_nat level, x) :: accepted (Z.to_nat level) r
      else accepted depth r
  end.

Lemma add_outline_spec level t l f :
  (add_outline level t l f = Err IndexError /\ (1 < level)%Z /\ (Z.of_nat (last_depth f) + 1 < level)%Z) \/
  (exists f', add_outline level t l f = Ok f' /\
     ((level <= 1)%Z \/ (level <= Z.of_nat (last_depth f) + 1)%Z) /\
     preorder 1 f' = preorder 1 f ++ [(Z.to_nat (Z.max 1 level), (t, l))]).
Proof.
  unfold add_outline, last_depth.
  pose proof (add_at_ok (Z.to_nat (level - 1)) (ONode t l []) f 1 ltac:(lia)) as Hok.
  destruct (add_at (Z.to_nat (level - 1)) (ONode t l []) f) as [f'|e] eqn:E.
  - right. exists f'. split; [reflexivity|]. split.
    + destruct (proj1 Hok (ex_intro _ _ eq_refl)) as [H|H]; [left; lia|right].
      set (q := fst _) in *. clearbody q. lia.
    + rewrite (add_at_preorder _ _ _ _ 1 t l eq_refl E). do 3 f_equal. lia.
  - left. assert (He : e = IndexError).
    { clear Hok. revert e E. generalize (Z.to_nat (level - 1)) as n. intros n. revert f.
      induction n as [|n IH]; intros f e E; cbn [add_at] in E; [discriminate|].
      destruct (rev f) as [|[t0 l0 ch] init]; [congruence|].
      destruct (add_at n _ ch) eqn:E2; [discriminate|]. injection E as <-. eapply IH, E2. }
    subst e. split; [reflexivity|].
    assert (Hn : ~ (Z.to_nat (level - 1) = 0 \/
      Z.to_nat (level - 1) + 1 <= S (fst (last (preorder 1 f) (0, ([], [])))))%nat).
    { intros H. apply Hok in H as [f' H]. discriminate. }
    set (q := fst _) in *. clearbody q. lia.
Qed.

Theorem outlines_run_preorder ops : forall f,
  preorder 1 (outlines_run f ops) = preorder 1 f ++ accepted (last_depth f) ops.
Proof.
  induction ops as [|[level [t l]] ops IH]; intros f; cbn [outlines_run fold_left accepted fst snd].
  - now rewrite app_nil_r.
  - destruct (add_outline_spec level t l f) as [(H & H1 & H2)|(f' & H & H1 & H2)]; rewrite H.
    + replace (level <=? 1)%Z with false by lia.
      replace (level <=? Z.of_nat (last_depth f) + 1)%Z with false by lia. apply IH.
    + assert (Hd : last_depth f' = Z.to_nat (Z.max 1 level)).
      { unfold last_depth. rewrite H2, last_app_ne by discriminate. reflexivity. }
      fold (outlines_run f' ops). rewrite IH, H2, Hd, <- app_assoc. cbn [app].
      destruct (level <=? 1)%Z eqn:E1.
      * replace (Z.to_nat (Z.max 1 level)) with 1%nat by lia. reflexivity.
      * replace (level <=? Z.of_nat (last_depth f) + 1)%Z with true by lia.
        replace (Z.to_nat (Z.max 1 level)) with (Z.to_nat level) by lia. reflexivity.
Qed.

(** ** Writing *)

Fixpoint size1 (t : otree) : nat :=
  match t with ONode _ _ ch => S (fold_right (fun t n => size1 t + n)%nat 0%nat ch) end.
Definition size (f : list otree) : nat := fold_right (fun t n => (size1 t + n)%nat) 0%nat f.

Lemma chain_frame st st' level parent prev entry f last ids :
  chain st level parent prev entry f last ids -> (forall i, In i ids -> sget st' i = sget st i) ->
  chain st' level parent prev entry f last ids.
Proof.
  induction 1 as [|level parent prev id d title label ch rest clast cids last ids H1 H2 H3 H4 H5 H6 Hc IHc H7 Hr IHr];
    intros Heq; [constructor|].
  eapply chain_cons; eauto.
  - rewrite Heq; [exact H1|now left].
  - apply IHc. intros i Hi. apply Heq. right. apply in_or_app. now left.
  - apply IHr. intros i Hi. apply Heq. right. apply in_or_app. now right.
Qed.

(** What writing an item does to the objects that existed before. *)
Definition link (st : store) (parent : nat) (prev : option nat) (id : nat) : store :=
  match prev with
  | Some p => sset st p (lit "Next") (oref id)
  | None => sset st parent (lit "First") (oref id)
  end.

Record node_ok (st st' : store) (level : Z) (parent : nat) (prev : option nat) (t : otree) (id : nat) (c : Z) : Prop := {
  no_id : id = S (List.length st);
  no_len : List.length st' = (List.length st + size1 t)%nat;
  no_old : forall i, (i <= List.length st)%nat -> sget st' i = sget (link st parent prev id) i;
  no_count : c = visible1 level t;
  no_item : exists d clast, sget st' id = Some d /\ dget (lit "Next") d = None /\
    match t with ONode title label ch =>
      dget (lit "Title") d = Some (OStr title) /\
      dget (lit "Dest") d = Some (OStr label) /\
      dget (lit "Parent") d = Some (oref parent) /\
      dget (lit "Prev") d = option_map oref prev /\
      dget (lit "Count") d = item_count level ch /\
      chain st' (level - 1)%Z id None (dget (lit "First") d) ch clast (seq (S id) (size ch)) /\
      dget (lit "Last") d = option_map oref clast
    end
}.

Lemma sset_length st id k v : List.length (sset st id k v) = List.length st.
Proof. apply supd_length. Qed.
Lemma sset_same st id k v d : sget st id = Some d -> sget (sset st id k v) id = Some (dset k v d).
Proof. apply supd_same. Qed.
Lemma sset_other st id k v i : id <> i -> sget (sset st id k v) i = sget st i.
Proof. apply supd_other. Qed.
Lemma link_length st parent prev id : List.length (link st parent prev id) = List.length st.
Proof. destruct prev; apply sset_length. Qed.

(** The chain written by the loop, given that each node is written well. *)
Lemma siblings_ok level parent l :
  Forall (fun t => forall st prev, (parent <= List.length st)%nat ->
     (forall p, prev = Some p -> (1 <= p <= List.length st)%nat /\ p <> parent) ->
     (1 <= parent)%nat ->
     let '(st', id, c) := outline_node level parent t st prev in node_ok st st' level parent prev t id c) l ->
  forall st prev count, (parent <= List.length st)%nat -> (1 <= parent)%nat ->
  (forall p, prev = Some p -> (1 <= p <= List.length st)%nat /\ p <> parent) ->
  let '(st', last, n) := siblings (outline_node level parent) l st prev count in
  n = (count + visible level l)%Z /\
  List.length st' = (List.length st + size l)%nat /\
  match l with
  | [] => st' = st /\ last = prev
  | _ =>
      (forall i, (i <= List.length st)%nat -> sget st' i = sget (link st parent prev (S (List.length st))) i) /\
      chain st' level parent prev (Some (oref (S (List.length st)))) l last (seq (S (List.length st)) (size l)) /\
      exists i, last = Some i
  end.
Proof.
  induction 1 as [|t l Ht Hl IH]; intros st prev count Hp Hp1 Hprev; cbn [siblings].
  - cbn. repeat split; lia.
  - specialize (Ht st prev Hp Hprev Hp1).
    destruct (outline_node level parent t st prev) as [[st1 id] c] eqn:E1.
    destruct Ht as [Hid Hlen Hold Hcount (d & clast & Hd & Hnext & Hitem)].
    fold (siblings (outline_node level parent)).
    specialize (IH st1 (Some id) (count + c)%Z).
    assert (P1 : (parent <= List.length st1)%nat) by lia.
    assert (P2 : forall p, Some id = Some p -> (1 <= p <= List.length st1)%nat /\ p <> parent).
    { intros p [= <-]. destruct t as [? ? ch]. cbn [size1] in Hlen. lia. }
    specialize (IH P1 Hp1 P2).
    destruct (siblings (outline_node level parent) l st1 (Some id) (count + c)%Z) as [[st' last] n] eqn:E2.
    destruct IH as (I1 & I2 & I3).
    split; [cbn [visible fold_right]; fold (visible level l); lia|].
    split; [cbn [size fold_right]; fold (size l); lia|].
    destruct t as [title label ch].
    destruct Hitem as (T1 & T2 & T3 & T4 & T5 & T6 & T7).
    assert (Hseq : seq (S (List.length st)) (size (ONode title label ch :: l)) =
                   id :: seq (S id) (size ch) ++ seq (S (List.length st1)) (size l)).
    { cbn [size fold_right size1]. fold (size ch). fold (size l). rewrite <- Hid.
      cbn [Nat.add seq]. rewrite seq_app. do 3 f_equal.
      cbn [size1] in Hlen. fold (size ch) in Hlen. lia. }
    destruct l as [|t2 l].
    + destruct I3 as [-> ->]. split; [|split; [|eauto]].
      * rewrite <- Hid. exact Hold.
      * rewrite Hseq, <- Hid. cbn [size fold_right seq]. eapply chain_cons; eauto.
        rewrite Hnext. constructor.
    + destruct I3 as (I3 & I4 & (li & I5)). split; [|split; [|eauto]].
      * intros i Hi. rewrite I3 by lia. cbn [link]. unfold sset. rewrite supd_other by lia.
        rewrite <- Hid. apply Hold, Hi.
      * rewrite Hseq, <- Hid. cbn [size1] in Hlen. fold (size ch) in Hlen.
        assert (Hd' : sget st' id = Some (dset (lit "Next") (oref (S (List.length st1))) d)).
        { rewrite I3 by lia. cbn [link]. apply supd_same, Hd. }
        eapply chain_cons with (clast := clast);
          [exact Hd'|..]; rewrite ?dget_dset_other by discriminate; eauto.
        -- eapply chain_frame; [exact T6|]. intros i Hi. apply in_seq in Hi.
           rewrite I3 by lia. cbn [link]. apply supd_other. lia.
        -- rewrite dget_dset_same. exact I4.
Qed.

Lemma outline_node_ok t : forall level parent st prev,
  (parent <= List.length st)%nat ->
  (forall p, prev = Some p -> (1 <= p <= List.length st)%nat /\ p <> parent) ->
  (1 <= parent)%nat ->
  let '(st', id, c) := outline_node level parent t st prev in node_ok st st' level parent prev t id c.
Proof.
  induction t as [title label ch IH] using otree_nested.
  intros level parent st prev Hp Hprev Hp1. cbn [outline_node sadd].
  set (id := S (List.length st)).
  set (st1 := st ++ [new_item title label parent]).
  set (d0 := new_item title label parent).
  set (d1 := match prev with Some p => dset (lit "Prev") (oref p) d0 | None => d0 end).
  set (st2 := match prev with
              | Some p => sset (sset st1 id (lit "Prev") (oref p)) p (lit "Next") (oref id)
              | None => sset st1 parent (lit "First") (oref id)
              end).
  assert (Hst1 : sget st1 id = Some d0) by apply sadd_new.
  assert (Hl2 : List.length st2 = id).
  { unfold st2, st1. destruct prev; rewrite ?sset_length, app_length; cbn; unfold id; lia. }
  assert (Hd1 : sget st2 id = Some d1).
  { unfold st2, d1. destruct prev as [p|].
    - destruct (Hprev p eq_refl) as [Hb Hne]. unfold sset at 1. rewrite supd_other by (unfold id; lia).
      unfold sset. now rewrite (supd_same _ _ _ d0).
    - unfold sset. rewrite supd_other by (unfold id; lia). exact Hst1. }
  assert (Hold2 : forall i, (i <= List.length st)%nat -> sget st2 i = sget (link st parent prev id) i).
  { intros i Hi. assert (Hs1 : sget st1 i = sget st i) by (apply sadd_old; lia).
    unfold st2, link. destruct prev as [p|]; unfold sset.
    - destruct (Nat.eq_dec p i) as [->|Hne].
      + destruct (sget st i) as [e|] eqn:Ee.
        * rewrite (supd_same _ _ _ e), (supd_same _ _ _ e); [reflexivity|exact Ee|].
          rewrite supd_other by (unfold id; lia). congruence.
        * destruct (Hprev i eq_refl) as [Hb _]. apply sget_lt in Hb as [e He]. congruence.
      + rewrite !supd_other by (unfold id in *; lia). exact Hs1.
    - destruct (Nat.eq_dec parent i) as [->|Hne].
      + destruct (sget st i) as [e|] eqn:Ee.
        * rewrite (supd_same _ _ _ e), (supd_same _ _ _ e); [reflexivity|exact Ee|congruence].
        * assert (Hb : (1 <= i <= List.length st)%nat) by lia. apply sget_lt in Hb as [e He]. congruence.
      + rewrite !supd_other by (unfold id in *; lia). exact Hs1. }
  assert (D1 : dget (lit "Title") d1 = Some (OStr title) /\ dget (lit "Dest") d1 = Some (OStr label) /\
    dget (lit "Parent") d1 = Some (oref parent) /\ dget (lit "Prev") d1 = option_map oref prev /\
    dget (lit "Next") d1 = None /\ dget (lit "First") d1 = None /\ dget (lit "Last") d1 = None /\
    dget (lit "Count") d1 = None) by (unfold d1; destruct prev; repeat split).
  destruct D1 as (D1 & D2 & D3 & D4 & D5 & D6 & D7 & D8).
  destruct ch as [|c0 ch0].
  - split; [reflexivity| | exact Hold2| |].
    + rewrite Hl2. unfold id. cbn. lia.
    + cbn. destruct (1 <? level)%Z; reflexivity.
    + exists d1, None. split; [exact Hd1|]. split; [exact D5|]. repeat split; auto.
      rewrite D6. constructor.
  - set (ch := c0 :: ch0) in *.
    assert (IH' : Forall (fun t => forall st prev, (id <= List.length st)%nat ->
       (forall p, prev = Some p -> (1 <= p <= List.length st)%nat /\ p <> id) -> (1 <= id)%nat ->
       let '(st', id', c) := outline_node (level - 1) id t st prev in
       node_ok st st' (level - 1) id prev t id' c) ch).
    { eapply Forall_impl; [|exact IH]. intros t Ht st0 prev0 A1 A2 A3. apply Ht; assumption. }
    pose proof (siblings_ok (level - 1) id ch IH' st2 None 0%Z ltac:(lia) ltac:(unfold id; lia)
                  ltac:(discriminate)) as Hs.
    destruct (siblings (outline_node (level - 1) id) ch st2 None 0%Z) as [[st3 last] n] eqn:E.
    destruct Hs as (S1 & S2 & S3). unfold ch in S3 at 1.
    destruct S3 as (S3 & S4 & (li & ->)). fold ch in S4.
    rewrite Hl2 in *. cbn [set_last].
    (* the two values of Count *)
    assert (Hgen : forall k, (dget (lit "Count") [(lit "Count", k)] = item_count level ch) ->
      forall c, c = visible1 level (ONode title label ch) ->
      node_ok st (sset (sset st3 id (lit "Last") (oref li)) id (lit "Count") k) level parent prev
        (ONode title label ch) id c).
    { intros k Hk c Hc.
      assert (Hd3 : sget st3 id = Some (dset (lit "First") (oref (S id)) d1)).
      { rewrite S3 by lia. cbn [link]. apply supd_same, Hd1. }
      set (d4 := dset (lit "Count") k (dset (lit "Last") (oref li) (dset (lit "First") (oref (S id)) d1))).
      assert (Hd4 : sget (sset (sset st3 id (lit "Last") (oref li)) id (lit "Count") k) id = Some d4).
      { unfold sset. erewrite supd_same; [reflexivity|]. erewrite supd_same; [reflexivity|]. exact Hd3. }
      split; [reflexivity| | |exact Hc|].
      - rewrite !sset_length, S2. cbn [size1]. fold (size ch). unfold id. lia.
      - intros i Hi. unfold sset at 1 2. rewrite !supd_other by (unfold id; lia).
        rewrite S3 by (unfold id; lia). cbn [link]. unfold sset. rewrite supd_other by (unfold id; lia).
        apply Hold2, Hi.
      - exists d4, (Some li). split; [exact Hd4|]. unfold d4.
        repeat match goal with
               | |- context [dget ?k (dset ?k2 ?v ?d)] => rewrite (dget_dset_other k2 k v d) by discriminate
               end.
        rewrite !dget_dset_same.
        repeat (split; [solve [auto]|]). split; [|reflexivity].
        eapply chain_frame; [exact S4|]. intros i Hi. apply in_seq in Hi.
        unfold sset. now rewrite !supd_other by lia. }
    unfold ch at 1. unfold set_last.
    destruct (1 <? level)%Z eqn:El.
    + apply Hgen.
      * change (item_count level ch) with (Some (OInt (if (1 <? level)%Z then visible (level - 1) ch else -1)%Z)).
        cbn [dget]. rewrite El. rewrite S1. reflexivity.
      * cbn [visible1]. rewrite El. rewrite S1. fold (visible (level - 1) ch). lia.
    + apply Hgen.
      * change (item_count level ch) with (Some (OInt (if (1 <? level)%Z then visible (level - 1) ch else -1)%Z)).
        cbn [dget]. rewrite El. reflexivity.
      * cbn [visible1]. rewrite El. reflexivity.
Qed.

Theorem build_outlines_spec st root rd outlines level : sget st root = Some rd -> outlines <> [] ->
  let st' := build_outlines st root outlines level in
  exists id d lst,
    sget st' root = Some (dset (lit "Outlines") (oref id) (dset (lit "PageMode") (name "/UseOutlines") rd)) /\
    (forall i, (i <= List.length st)%nat -> i <> root -> sget st' i = sget st i) /\
    sget st' id = Some d /\ dget (lit "Type") d = Some (name "/Outlines") /\
    dget (lit "Count") d = Some (OInt (visible level outlines)) /\
    dget (lit "Last") d = Some (oref lst) /\
    chain st' level id None (dget (lit "First") d) outlines (Some lst) (seq (S id) (size outlines)).
Proof.
  intros Hr Hne. cbv zeta.
  set (id := S (List.length st)). set (d0 := [(lit "Type", name "/Outlines")] : dict).
  set (st3 := sset (sset (st ++ [d0]) root (lit "PageMode") (name "/UseOutlines")) root (lit "Outlines") (oref id)).
  assert (E0 : build_outlines st root outlines level =
               let '(st4, n) := build_outlines_tree st3 outlines id level in sset st4 id (lit "Count") (OInt n)).
  { destruct outlines; [congruence|reflexivity]. }
  rewrite E0.
  assert (Hl3 : List.length st3 = id) by (unfold st3; rewrite !sset_length, app_length; cbn; unfold id; lia).
  assert (Hrl := sget_some_lt _ _ _ Hr).
  unfold build_outlines_tree.
  pose proof (siblings_ok level id outlines) as Hs.
  specialize (Hs (proj2 (Forall_forall _ _) (fun t _ st prev A1 A2 A3 => outline_node_ok t level id st prev A1 A2 A3))).
  specialize (Hs st3 None 0%Z ltac:(lia) ltac:(unfold id; lia) ltac:(discriminate)).
  destruct (siblings (outline_node level id) outlines st3 None 0%Z) as [[st4 lst] n] eqn:E.
  destruct Hs as (S1 & S2 & S3). destruct outlines as [|o' os']; [congruence|].
  destruct S3 as (S3 & S4 & (li & ->)). rewrite Hl3 in *. cbn [set_last].
  assert (Hd3 : sget st3 id = Some d0).
  { unfold st3, sset. rewrite !supd_other by (unfold id; lia). apply sadd_new. }
  assert (Hd4 : sget st4 id = Some (dset (lit "First") (oref (S id)) d0)).
  { rewrite S3 by lia. cbn [link]. now apply supd_same. }
  exists id. eexists. exists li. split; [|split; [|split; [|split; [|split; [|split]]]]].
  - rewrite !(sset_other _ id) by (unfold id; lia). rewrite S3 by (unfold id; lia).
    cbn [link]. rewrite sset_other by (unfold id; lia).
    unfold st3. erewrite sset_same; [reflexivity|]. erewrite sset_same; [reflexivity|].
    now apply sadd_keep.
  - intros i Hi Hir. rewrite !(sset_other _ id) by (unfold id; lia). rewrite S3 by (unfold id; lia).
    cbn [link]. rewrite sset_other by (unfold id; lia).
    unfold st3. rewrite !sset_other by lia. apply sadd_old. lia.
  - erewrite sset_same; [reflexivity|]. erewrite sset_same; [reflexivity|]. exact Hd4.
  - reflexivity.
  - rewrite dget_dset_same. now rewrite S1.
  - rewrite dget_dset_other by discriminate. apply dget_dset_same.
  - rewrite !dget_dset_other by discriminate. rewrite dget_dset_same.
    eapply chain_frame; [exact S4|]. intros i Hi. apply in_seq in Hi.
    now rewrite !sset_other by lia.
Qed.
