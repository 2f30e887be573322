(** Model of the named destinations tree: pdfme/pdf.py 942-1000. *)
From Verif Require Import Py Parser StreamProofs Store PageTree.
From Coq Require Import String Sorted.
Open Scope list_scope.

(** Python's order of texts: by code points. *)
Fixpoint str_ltb (a b : str) : bool :=
  match a, b with
  | _, [] => false
  | [], _ :: _ => true
  | x :: a', y :: b' => (x <? y)%N || ((x =? y)%N && str_ltb a' b')
  end.
Definition str_leb (a b : str) : bool := negb (str_ltb b a).
Definition str_lt (a b : str) : Prop := str_ltb a b = true.

(** [dests.sort()] of the keys, carrying the values along. *)
Fixpoint insert_key {V} (kv : str * V) (l : list (str * V)) : list (str * V) :=
  match l with
  | [] => [kv]
  | kv' :: r => if str_ltb (fst kv) (fst kv') then kv :: l else kv' :: insert_key kv r
  end.
Definition sort_keys {V} (l : list (str * V)) : list (str * V) := fold_right insert_key [] l.

(** Entries of one level: a name with its destination at the first level,
    later a node already built with its limits. *)
Inductive dentry :=
| DLeaf (key : str) (val : obj)
| DNode (id : nat) (lo hi : str).
Definition lo_of (e : dentry) : str := match e with DLeaf k _ => k | DNode _ lo _ => lo end.
Definition hi_of (e : dentry) : str := match e with DLeaf k _ => k | DNode _ _ hi => hi end.
(** pdf.py 977-981: what an entry appends to Names or Kids. *)
Definition items_of (e : dentry) : list obj :=
  match e with DLeaf k v => [OStr k; v] | DNode id _ _ => [oref id] end.

Definition node_key (first : bool) : str := if first then lit "Names" else lit "Kids".
(** pdf.py 972-975: a new node. *)
Definition open_node (first : bool) (lo : str) : dict :=
  [(lit "Limits", OSeq [OStr lo; ONone]); (node_key first, OSeq [])].
Definition dappends (k : str) (xs : list obj) (d : dict) : dict := fold_left (fun d x => dappend k x d) xs d.
(** pdf.py 984: [obj['Limits'][1] = v]. *)
Definition set_limit (hi : str) (d : dict) : dict :=
  match dget (lit "Limits") d with
  | Some (OSeq [a; _]) => dset (lit "Limits") (OSeq [a; OStr hi]) d
  | _ => d
  end.
(** The node as an entry of the next level (pdf.py 985-986). *)
Definition as_entry (st : store) (id : nat) : dentry :=
  match sget st id with
  | Some d => match dget (lit "Limits") d with
              | Some (OSeq [OStr lo; OStr hi]) => DNode id lo hi
              | _ => DNode id [] []
              end
  | None => DNode id [] []
  end.

(** pdf.py 966-988: the loop; [cur] is [obj], [acc] is [new_keys]/[new_vals]. *)
Fixpoint dests_loop (first : bool) (st : store) (i cur count : nat) (acc : list dentry)
    (l : list dentry) : store * nat * nat * list dentry :=
  match l with
  | [] => (st, cur, count, acc)
  | e :: r =>
      let '(st1, cur1, count1) :=
        if (i mod 7 =? 0)%nat then
          let '(id, st') := sadd st (open_node first (lo_of e)) in (st', id, S count)
        else (st, cur, count) in
      let st2 := supd st1 cur1 (dappends (node_key first) (items_of e)) in
      if ((i + 1) mod 7 =? 0)%nat || (match r with [] => true | _ => false end) then
        let st3 := supd st2 cur1 (set_limit (hi_of e)) in
        dests_loop first st3 (i + 1) cur1 count1 (acc ++ [as_entry st3 cur1]) r
      else dests_loop first st2 (i + 1) cur1 count1 acc r
  end.

(** pdf.py 990-993: the catalog's entry. *)
Definition set_dests (id : nat) (rd : dict) : dict :=
  let rd1 := if dmem (lit "Names") rd then rd else dset (lit "Names") (ODict []) rd in
  match dget (lit "Names") rd1 with
  | Some (ODict n) => dset (lit "Names") (ODict (dset (lit "Dests") (oref id) n)) rd1
  | _ => rd1
  end.

(** pdf.py 942-995 [_build_dests_tree]. *)
Fixpoint build_dests_tree (fuel : nat) (first : bool) (st : store) (root : nat) (l : list dentry)
  : res store :=
  match fuel with
  | O => Err OutOfFuel
  | S f =>
      let '(st', cur, count, acc) := dests_loop first st 0 0 0 [] l in
      if (count =? 1)%nat then
        Ok (supd (supd st' cur (dpop (lit "Limits"))) root (set_dests cur))
      else build_dests_tree f false st' root acc
  end.

(** pdf.py 995-1000 [_build_dests]. *)
Definition build_dests (st : store) (root : nat) (dests : dict) : res store :=
  match dests with
  | [] => Ok st
  | _ => build_dests_tree (List.length dests) true st root
           (map (fun kv => DLeaf (fst kv) (snd kv)) (sort_keys dests))
  end.

(** ** Specification: name trees (PDF 32000, 7.9.6) *)

(** Search of a name in an alternating list of names and values. *)
Fixpoint pair_search (k : str) (l : list obj) : option obj :=
  match l with
  | OStr k' :: v :: r => if str_eqb k k' then Some v else pair_search k r
  | _ => None
  end.
(** Does the node with dictionary [d] announce that it may contain [k]? *)
Definition in_limits (k : str) (d : dict) : bool :=
  match dget (lit "Limits") d with
  | Some (OSeq [OStr lo; OStr hi]) => str_leb lo k && str_leb k hi
  | _ => false
  end.
(** The lookup of a conforming reader: in a leaf search Names, in an inner
    node continue with the first kid whose Limits contain the name. *)
Fixpoint name_lookup (fuel : nat) (st : store) (id : nat) (k : str) : option obj :=
  match fuel with
  | O => None
  | S f =>
      match sget st id with
      | None => None
      | Some d =>
          match dget (lit "Names") d with
          | Some (OSeq l) => pair_search k l
          | _ =>
              match dget (lit "Kids") d with
              | Some (OSeq kids) =>
                  match find (fun o => match o with
                                       | ORef z => match sget st (Z.to_nat z) with
                                                   | Some dk => in_limits k dk
                                                   | None => false
                                                   end
                                       | _ => false
                                       end) kids with
                  | Some (ORef z) => name_lookup f st (Z.to_nat z) k
                  | _ => None
                  end
              | _ => None
              end
          end
      end
  end.

(** Well formed name tree with the given contents: leaves hold non-empty
    sorted Names, inner nodes non-empty Kids, every node but the root has
    Limits equal to its first and last name. *)
Definition limits_ok (is_root : bool) (d : dict) (kvs : dict) : Prop :=
  if is_root then dget (lit "Limits") d = None
  else exists lo hi, dget (lit "Limits") d = Some (OSeq [OStr lo; OStr hi]) /\
         hd_error (keys kvs) = Some lo /\ last (keys kvs) [] = hi.
Inductive name_tree (st : store) : bool -> nat -> dict -> Prop :=
| nt_leaf rt id d kvs : sget st id = Some d -> kvs <> [] ->
    dget (lit "Names") d = Some (OSeq (flat_map (fun kv => [OStr (fst kv); snd kv]) kvs)) ->
    dget (lit "Kids") d = None -> limits_ok rt d kvs ->
    name_tree st rt id kvs
| nt_node rt id d kids kvss : sget st id = Some d -> kids <> [] ->
    dget (lit "Names") d = None ->
    dget (lit "Kids") d = Some (OSeq (map oref kids)) ->
    Forall2 (name_tree st false) kids kvss -> limits_ok rt d (List.concat kvss) ->
    name_tree st rt id (List.concat kvss).

(** ** The order *)
Lemma str_ltb_irrefl a : str_ltb a a = false.
Proof. induction a as [|x a IH]; cbn; [reflexivity|]. rewrite IH. lia. Qed.
Lemma str_ltb_trans a : forall b c, str_ltb a b = true -> str_ltb b c = true -> str_ltb a c = true.
Proof.
  induction a as [|x a IH]; intros [|y b] [|z c]; cbn; try discriminate; auto.
  intros H1 H2. apply orb_true_iff in H1, H2. apply orb_true_iff.
  destruct H1 as [H1|H1], H2 as [H2|H2]; try (left; lia).
  right. apply andb_true_iff in H1 as [H1 H1'], H2 as [H2 H2']. apply andb_true_iff. split; [lia|].
  eapply IH; eassumption.
Qed.
Lemma str_trichotomy a : forall b, str_ltb a b = true \/ a = b \/ str_ltb b a = true.
Proof.
  induction a as [|x a IH]; intros [|y b]; cbn; auto.
  destruct (N.lt_trichotomy x y) as [H|[->|H]].
  - left. lia.
  - destruct (IH b) as [H|[->|H]]; rewrite ?H; auto.
    + left. lia.
    + right. right. lia.
  - right. right. lia.
Qed.

Lemma insert_sorted {V} (kv : str * V) l : StronglySorted str_lt (keys l) -> ~ In (fst kv) (keys l) ->
  StronglySorted str_lt (keys (insert_key kv l)) /\
  forall k, In k (keys (insert_key kv l)) <-> k = fst kv \/ In k (keys l).
Proof.
  induction l as [|kv' l IH]; intros Hs Hn; cbn [insert_key].
  - split; [repeat constructor|]. cbn. intuition.
  - destruct (str_ltb (fst kv) (fst kv')) eqn:E.
    + split; [|cbn; intuition]. constructor; [exact Hs|]. inversion Hs as [|? ? Hs' Hf]; subst.
      constructor; [exact E|]. rewrite Forall_forall in *. intros x Hx.
      eapply str_ltb_trans; [exact E|]. apply Hf, Hx.
    + cbn [keys map] in Hs. inversion Hs as [|? ? Hs' Hf]; subst.
      destruct (IH Hs') as [I1 I2]; [intros H; apply Hn; now right|].
      split.
      * cbn [keys map]. constructor; [exact I1|]. rewrite Forall_forall in *. intros x Hx.
        apply I2 in Hx as [->|Hx]; [|now apply Hf].
        destruct (str_trichotomy (fst kv') (fst kv)) as [H|[H|H]]; [exact H| |unfold str_lt in *; congruence].
        exfalso. apply Hn. left. exact H.
      * intros k. cbn [keys map In]. rewrite I2. intuition.
Qed.

Lemma dget_insert {V} (kv : str * V) l k : ~ In (fst kv) (keys l) ->
  dget k (insert_key kv l) = if str_eqb k (fst kv) then Some (snd kv) else dget k l.
Proof.
  destruct kv as [k0 v0]. cbn [fst snd].
  induction l as [|[k1 v1] l IH]; intros Hn; cbn [insert_key]; [reflexivity|]. cbn [fst].
  destruct (str_ltb k0 k1); [reflexivity|]. cbn [dget].
  destruct (str_eqb k k1) eqn:E.
  - destruct (str_eqb k k0) eqn:E0; [|reflexivity]. apply str_eqb_eq in E, E0. subst.
    exfalso. apply Hn. now left.
  - apply IH. intros H. apply Hn. now right.
Qed.

Lemma sort_keys_spec {V} (l : list (str * V)) : NoDup (keys l) ->
  StronglySorted str_lt (keys (sort_keys l)) /\ (forall k, dget k (sort_keys l) = dget k l) /\
  (forall k, In k (keys (sort_keys l)) <-> In k (keys l)) /\
  List.length (sort_keys l) = List.length l.
Proof.
  induction l as [|[k0 v0] l IH]; intros Hn; cbn [sort_keys fold_right].
  - repeat split; auto. constructor.
  - inversion Hn as [|? ? Hni Hn']; subst. destruct (IH Hn') as (H1 & H2 & H3 & H4).
    fold (sort_keys l) in *.
    assert (Hni' : ~ In (fst (k0, v0)) (keys (sort_keys l))) by (rewrite H3; exact Hni).
    destruct (insert_sorted (k0, v0) _ H1 Hni') as [I1 I2]. split; [exact I1|]. split; [|split].
    + intros k. rewrite dget_insert by exact Hni'. cbn [dget fst snd]. now rewrite H2.
    + intros k. rewrite I2, H3. cbn [keys map In fst]. intuition.
    + cbn [List.length]. rewrite <- H4. clear. induction (sort_keys l) as [|kv r IH]; [reflexivity|].
      cbn [insert_key]. destruct (str_ltb _ _); cbn [List.length]; [reflexivity|]. now rewrite IH.
Qed.

(** ** The loop cuts the entries in groups of seven *)

Definition closed_node (first : bool) (c : list dentry) : dict :=
  [(lit "Limits", OSeq [OStr (lo_of (hd (DNode 0 [] []) c)); OStr (hi_of (last c (DNode 0 [] [])))]);
   (node_key first, OSeq (flat_map items_of c))].
Definition part_node (first : bool) (lo : str) (done : list obj) : dict :=
  [(lit "Limits", OSeq [OStr lo; ONone]); (node_key first, OSeq done)].

Lemma key_neq first : str_eqb (lit "Limits") (node_key first) = false /\
  str_eqb (node_key first) (lit "Limits") = false.
Proof. destruct first; split; reflexivity. Qed.

Lemma dappends_part first lo done xs :
  dappends (node_key first) xs (part_node first lo done) = part_node first lo (done ++ xs).
Proof.
  revert done. induction xs as [|x xs IH]; intros done; cbn [dappends fold_left].
  - now rewrite app_nil_r.
  - replace (dappend (node_key first) x (part_node first lo done)) with (part_node first lo (done ++ [x])).
    + specialize (IH (done ++ [x])). unfold dappends in IH. rewrite IH, <- app_assoc. reflexivity.
    + destruct first; reflexivity.
Qed.

Lemma set_limit_part first lo done hi : set_limit hi (part_node first lo done) =
  [(lit "Limits", OSeq [OStr lo; OStr hi]); (node_key first, OSeq done)].
Proof. reflexivity. Qed.

Lemma upd_nth_app {A} (f : A -> A) l x : upd_nth (List.length l) f (l ++ [x]) = l ++ [f x].
Proof. induction l; cbn; [reflexivity|]. now rewrite IHl. Qed.
Lemma supd_last st d f : supd (st ++ [d]) (S (List.length st)) f = st ++ [f d].
Proof. cbn. apply upd_nth_app. Qed.

Lemma last_cons {A} (x : A) l d : l <> [] -> last (x :: l) d = last l d.
Proof. destruct l; [congruence|reflexivity]. Qed.

(** Finishing a group: [es] are its remaining entries. *)
Lemma loop_fill first es : forall st lo done i count acc rest,
  es <> [] -> (0 < i mod 7)%nat -> (i mod 7 + List.length es <= 7)%nat ->
  (i mod 7 + List.length es = 7)%nat \/ rest = [] ->
  dests_loop first (st ++ [part_node first lo done]) i (S (List.length st)) count acc (es ++ rest) =
  let nd := [(lit "Limits", OSeq [OStr lo; OStr (hi_of (last es (DNode 0 [] [])))]);
             (node_key first, OSeq (done ++ flat_map items_of es))] in
  dests_loop first (st ++ [nd]) (i + List.length es) (S (List.length st)) count
    (acc ++ [DNode (S (List.length st)) lo (hi_of (last es (DNode 0 [] [])))]) rest.
Proof.
  induction es as [|e es IH]; intros st lo done i count acc rest Hne Hi Hle Hend; [congruence|].
  cbn [app dests_loop]. replace (i mod 7 =? 0)%nat with false by lia.
  rewrite supd_last, dappends_part. cbn [List.length] in *.
  assert (Hmod : ((i + 1) mod 7 = if (i mod 7 =? 6)%nat then 0 else i mod 7 + 1)%nat).
  { rewrite Nat.add_mod by lia. change (1 mod 7)%nat with 1%nat.
    assert (i mod 7 < 7)%nat by (apply Nat.mod_upper_bound; lia).
    destruct (i mod 7 =? 6)%nat eqn:E.
    - replace (i mod 7)%nat with 6%nat by lia. reflexivity.
    - apply Nat.mod_small. lia. }
  destruct es as [|e2 es].
  - assert (Hc : (((i + 1) mod 7 =? 0)%nat || match rest with [] => true | _ => false end) = true).
    { destruct Hend as [Hend| ->]; [|apply orb_true_r]. rewrite Hmod.
      cbn [List.length] in Hend. replace (i mod 7 =? 6)%nat with true by lia. reflexivity. }
    cbn [app]. rewrite Hc. rewrite supd_last, set_limit_part. cbv zeta. cbn [last flat_map List.length].
    rewrite app_nil_r. unfold as_entry. rewrite sadd_new. reflexivity.
  - assert (Hc : (((i + 1) mod 7 =? 0)%nat || match (e2 :: es) ++ rest with [] => true | _ => false end) = false).
    { rewrite Hmod. cbn [List.length] in Hle. replace (i mod 7 =? 6)%nat with false by lia.
      cbn [app]. lia. }
    rewrite Hc.
    assert (Hm1 : ((i + 1) mod 7 = i mod 7 + 1)%nat).
    { rewrite Hmod. cbn [List.length] in Hle. replace (i mod 7 =? 6)%nat with false by lia. reflexivity. }
    rewrite IH; [|discriminate|lia| |].
    + cbv zeta. rewrite (last_cons e) by discriminate. cbn [flat_map List.length].
      rewrite <- !app_assoc. replace (i + S (S (List.length es)))%nat with (i + 1 + S (List.length es))%nat by lia.
      reflexivity.
    + cbn [List.length] in *. lia.
    + cbn [List.length] in *. destruct Hend; [left; lia|auto].
Qed.

(** One whole group. *)
Lemma loop_group first c : forall st i cur count acc rest,
  c <> [] -> (i mod 7 = 0)%nat -> (List.length c <= 7)%nat -> (List.length c = 7%nat \/ rest = []) ->
  dests_loop first st i cur count acc (c ++ rest) =
  dests_loop first (st ++ [closed_node first c]) (i + List.length c) (S (List.length st)) (S count)
    (acc ++ [DNode (S (List.length st)) (lo_of (hd (DNode 0 [] []) c)) (hi_of (last c (DNode 0 [] [])))]) rest.
Proof.
  intros st i cur count acc rest Hne Hi Hle Hend. destruct c as [|e es]; [congruence|].
  cbn [app dests_loop]. replace (i mod 7 =? 0)%nat with true by lia. cbn [sadd].
  change (open_node first (lo_of e)) with (part_node first (lo_of e) []).
  rewrite supd_last, dappends_part. cbn [app].
  assert (Hmod : ((i + 1) mod 7 = 1)%nat).
  { rewrite Nat.add_mod by lia. rewrite Hi. reflexivity. }
  rewrite Hmod. change (1 =? 0)%nat with false. cbn [orb].
  destruct es as [|e2 es].
  - cbn [app List.length] in *. destruct Hend as [Hend| ->]; [lia|].
    rewrite supd_last, set_limit_part. unfold as_entry. rewrite sadd_new. cbn [dget].
    change (str_eqb (lit "Limits") (lit "Limits")) with true. cbv iota.
    unfold closed_node. cbn [hd last flat_map app]. rewrite app_nil_r. reflexivity.
  - cbn [app]. change (e2 :: es ++ rest) with ((e2 :: es) ++ rest).
    rewrite loop_fill; [|discriminate|lia| |].
    + cbv zeta. unfold closed_node. rewrite (last_cons e) by discriminate. cbn [hd flat_map List.length].
      replace (i + 1 + S (List.length es))%nat with (i + S (S (List.length es)))%nat by lia.
      reflexivity.
    + rewrite Hmod. cbn [List.length] in *. lia.
    + rewrite Hmod. cbn [List.length] in *. destruct Hend; [left; lia|auto].
Qed.

(** Groups: all of size seven but the last, none empty. *)
Fixpoint groups (cs : list (list dentry)) : Prop :=
  match cs with
  | [] => True
  | [c] => c <> [] /\ (List.length c <= 7)%nat
  | c :: r => List.length c = 7%nat /\ groups r
  end.

Fixpoint node_entries (n : nat) (cs : list (list dentry)) : list dentry :=
  match cs with
  | [] => []
  | c :: r => DNode (S n) (lo_of (hd (DNode 0 [] []) c)) (hi_of (last c (DNode 0 [] [])))
              :: node_entries (S n) r
  end.

Lemma loop_groups first cs : forall st i cur count acc, groups cs -> (i mod 7 = 0)%nat ->
  dests_loop first st i cur count acc (List.concat cs) =
  (st ++ map (closed_node first) cs,
   (match cs with [] => cur | _ => List.length st + List.length cs end)%nat,
   (count + List.length cs)%nat,
   acc ++ node_entries (List.length st) cs).
Proof.
  induction cs as [|c cs IH]; intros st i cur count acc Hg Hi.
  - cbn. rewrite !app_nil_r, Nat.add_0_r. reflexivity.
  - cbn [List.concat].
    assert (Hc : c <> [] /\ (List.length c <= 7)%nat /\ (List.length c = 7%nat \/ List.concat cs = []) /\ groups cs).
    { destruct cs as [|c2 cs]; cbn [groups] in Hg.
      - destruct Hg as [H1 H2]. repeat split; auto.
      - destruct Hg as [H1 H2]. repeat split; auto; [|lia]. intros ->. discriminate. }
    destruct Hc as (H1 & H2 & H3 & H4).
    rewrite loop_group by auto.
    destruct cs as [|c2 cs].
    + cbn [List.concat map app node_entries List.length dests_loop].
      (apply f_equal2; [apply f_equal2; [apply f_equal2|]|]); lia || reflexivity.
    + rewrite IH; [|exact H4|].
      * rewrite app_length. cbn [List.length map node_entries].
        rewrite <- !app_assoc. cbn [app].
        replace (List.length st + 1)%nat with (S (List.length st)) by lia.
        (apply f_equal2; [apply f_equal2; [apply f_equal2|]|]); try reflexivity; lia.
      * cbn [groups] in Hg. destruct Hg as [-> _].
        rewrite Nat.add_mod, Hi by lia. reflexivity.
Qed.

Lemma cut_groups (l : list dentry) : l <> [] -> exists cs, List.concat cs = l /\ groups cs /\ cs <> [] /\
  (List.length cs <= List.length l)%nat /\ ((2 <= List.length l)%nat -> (List.length cs < List.length l)%nat).
Proof.
  remember (List.length l) as n eqn:Hn. revert l Hn.
  induction n as [n IH] using lt_wf_ind. intros l Hn Hne.
  destruct (Nat.le_gt_cases (List.length l) 7) as [Hle|Hgt].
  - exists [l]. cbn. rewrite app_nil_r. destruct l; [congruence|]. cbn [List.length] in *. repeat split; auto; try discriminate; lia.
  - assert (Hl : List.length (skipn 7 l) = (List.length l - 7)%nat) by apply skipn_length.
    destruct (IH (List.length (skipn 7 l)) ltac:(lia) (skipn 7 l) eq_refl) as (cs & H1 & H2 & H3 & H4 & H5).
    { intros H. rewrite H in Hl. cbn in Hl. lia. }
    exists (firstn 7 l :: cs). cbn [List.concat]. rewrite H1, firstn_skipn.
    split; [reflexivity|]. split; [|split; [discriminate|cbn [List.length]; lia]].
    cbn [groups]. destruct cs; [congruence|]. split; [|exact H2].
    rewrite firstn_length. lia.
Qed.

(** ** The tree built is a well formed name tree *)

(** [e] stands for the names [kvs]. *)
Definition stands (st : store) (first : bool) (e : dentry) (kvs : dict) : Prop :=
  match e with
  | DLeaf k v => first = true /\ kvs = [(k, v)]
  | DNode id lo hi => first = false /\ name_tree st false id kvs /\ kvs <> [] /\
      hd_error (keys kvs) = Some lo /\ last (keys kvs) [] = hi
  end.

Definition is_node (d : dict) : Prop :=
  (exists l, dget (lit "Names") d = Some (OSeq l)) \/ (exists l, dget (lit "Kids") d = Some (OSeq l)).
Lemma name_tree_mono st st' rt id kvs :
  (forall i d, is_node d -> sget st i = Some d -> sget st' i = Some d) ->
  name_tree st rt id kvs -> name_tree st' rt id kvs.
Proof.
  intros Hsub. revert rt id kvs. fix IH 4. intros rt id kvs H.
  destruct H as [rt id d kvs Hd Hne Hn Hk Hl|rt id d kids kvss Hd Hne Hn Hk Hf Hl].
  - eapply nt_leaf; eauto. apply Hsub; [left; eauto|exact Hd].
  - eapply nt_node; eauto; [apply Hsub; [right; eauto|exact Hd]|]. clear Hne Hk Hl. induction Hf as [|kid kvs' kids kvss Hx Hf IHf]; constructor; auto.
Qed.

Lemma name_tree_nonempty st rt id kvs : name_tree st rt id kvs -> kvs <> [].
Proof.
  revert rt id kvs. fix IH 4. intros rt id kvs H.
  destruct H as [rt id d kvs Hd Hne Hn Hk Hl|rt id d kids kvss Hd Hne Hn Hk Hf Hl]; [exact Hne|].
  destruct Hf as [|kid kvs' kids kvss Hx Hf]; [congruence|]. cbn [List.concat].
  apply IH in Hx. destruct kvs'; [congruence|discriminate].
Qed.

Lemma keys_app {V} (a b : list (str * V)) : keys (a ++ b) = keys a ++ keys b.
Proof. apply map_app. Qed.

Lemma hd_error_app {A} (a b : list A) : a <> [] -> hd_error (a ++ b) = hd_error a.
Proof. destruct a; [congruence|reflexivity]. Qed.
Lemma last_app_r {A} (a b : list A) d : b <> [] -> last (a ++ b) d = last b d.
Proof.
  intros Hb. induction a as [|x a IH]; [reflexivity|]. cbn [app].
  rewrite last_cons; [exact IH|]. destruct a; [cbn; exact Hb|discriminate].
Qed.

Lemma stands_nonempty st first e kvs : stands st first e kvs -> kvs <> [].
Proof. destruct e; cbn; intros H. - destruct H as [_ ->]. discriminate. - tauto. Qed.

Lemma group_limits st first c kvss : c <> [] -> Forall2 (stands st first) c kvss ->
  hd_error (keys (List.concat kvss)) = Some (lo_of (hd (DNode 0 [] []) c)) /\
  last (keys (List.concat kvss)) [] = hi_of (last c (DNode 0 [] [])) /\ List.concat kvss <> [].
Proof.
  intros Hne Hf. induction Hf as [|e kvs c kvss Hx Hf IH]; [congruence|]. cbn [List.concat].
  assert (Hkne := stands_nonempty _ _ _ _ Hx).
  assert (Hkk : keys kvs <> []) by (destruct kvs; [congruence|discriminate]).
  assert (Hh : hd_error (keys kvs) = Some (lo_of e) /\ last (keys kvs) [] = hi_of e).
  { destruct e; cbn in Hx |- *; [destruct Hx as [_ ->]; auto|tauto]. }
  destruct Hh as [Hh1 Hh2]. rewrite keys_app, hd_error_app by exact Hkk.
  split; [exact Hh1|]. split.
  - destruct c as [|e2 c].
    + inversion Hf; subst. cbn [List.concat keys map last]. rewrite app_nil_r. exact Hh2.
    + destruct (IH ltac:(discriminate)) as (_ & IH2 & IH3).
      rewrite last_app_r by (destruct (List.concat kvss); [congruence|discriminate]).
      rewrite (last_cons e) by discriminate. exact IH2.
  - destruct kvs; [congruence|discriminate].
Qed.

Lemma group_items_leaf st c kvss : Forall2 (stands st true) c kvss ->
  flat_map items_of c = flat_map (fun kv => [OStr (fst kv); snd kv]) (List.concat kvss).
Proof.
  induction 1 as [|e kvs c kvss Hx Hf IH]; [reflexivity|]. cbn [flat_map List.concat].
  rewrite flat_map_app, IH. f_equal. destruct e; cbn in Hx; [destruct Hx as [_ ->]; reflexivity|].
  destruct Hx; discriminate.
Qed.
Lemma group_items_node st c kvss : Forall2 (stands st false) c kvss ->
  exists ids, flat_map items_of c = map oref ids /\ List.length ids = List.length c /\
    Forall2 (name_tree st false) ids kvss.
Proof.
  induction 1 as [|e kvs c kvss Hx Hf (ids & H1 & H2 & H3)]; [exists []; auto|].
  destruct e as [k v|id lo hi]; cbn in Hx; [destruct Hx; discriminate|].
  exists (id :: ids). cbn [flat_map items_of map app List.length]. rewrite H1, H2.
  split; [reflexivity|]. split; [reflexivity|]. constructor; tauto.
Qed.

(** A group becomes a node with its names. *)
Lemma group_node st st' first c kvss id rt :
  c <> [] -> Forall2 (stands st first) c kvss ->
  (forall i d, is_node d -> sget st i = Some d -> sget st' i = Some d) ->
  (exists d, sget st' id = Some d /\
     d = (if rt : bool then [(node_key first, OSeq (flat_map items_of c))] else closed_node first c)) ->
  name_tree st' rt id (List.concat kvss).
Proof.
  intros Hne Hf Hsub (d & Hd & Ed).
  destruct (group_limits st first c kvss Hne Hf) as (L1 & L2 & L3).
  assert (Hlim : limits_ok rt d (List.concat kvss)).
  { unfold limits_ok. destruct rt; subst d.
    - cbn [dget]. rewrite (proj1 (key_neq first)). reflexivity.
    - eexists _, _. split; [reflexivity|]. auto. }
  assert (Hkey : dget (node_key first) d = Some (OSeq (flat_map items_of c)) /\
                 dget (node_key (negb first)) d = None).
  { destruct rt; subst d; destruct first; split; reflexivity. }
  destruct Hkey as [K1 K2]. destruct first; cbn [node_key negb] in K1, K2.
  - eapply nt_leaf; eauto. rewrite K1. f_equal. f_equal. eapply group_items_leaf, Hf.
  - destruct (group_items_node st c kvss Hf) as (ids & I1 & I2 & I3).
    eapply nt_node with (d := d) (kids := ids); eauto.
    + intros ->. cbn in I2. destruct c; [congruence|discriminate].
    + now rewrite K1, I1.
    + clear - I3 Hsub. induction I3; constructor; auto. eapply name_tree_mono; eauto.
Qed.

Lemma sget_app_keep st more id d : sget st id = Some d -> sget (st ++ more) id = Some d.
Proof.
  destruct id as [|i]; [discriminate|]. cbn. intros H. rewrite nth_error_app1; [exact H|].
  apply nth_error_Some. congruence.
Qed.

(** The entries of the next level stand for the groups. *)
Lemma level_stands first st cs : forall before kvss,
  groups cs -> Forall2 (fun c k => Forall2 (stands st first) c k) cs kvss ->
  (exists m, before = st ++ m) ->
  Forall2 (stands (before ++ map (closed_node first) cs) false)
    (node_entries (List.length before) cs) (map (@List.concat _) kvss).
Proof.
  induction cs as [|c cs IH]; intros before kvss Hg Hf Hb.
  - inversion Hf; subst. constructor.
  - inversion Hf as [|? k ? kvss' Hx Hf']; subst. cbn [map node_entries].
    assert (Hc : c <> [] /\ groups cs).
    { destruct cs; cbn [groups] in Hg; [cbn; tauto|]. destruct Hg as [H1 H2]. split; [|exact H2]. intros ->. discriminate. }
    destruct Hc as [Hc Hg'].
    replace (before ++ closed_node first c :: map (closed_node first) cs)
      with ((before ++ [closed_node first c]) ++ map (closed_node first) cs) by (rewrite <- app_assoc; reflexivity).
    constructor.
    + destruct (group_limits st first c k Hc Hx) as (L1 & L2 & L3). cbn [stands].
      split; [reflexivity|]. split; [|auto].
      eapply (group_node st _ first c k _ false); [exact Hc|exact Hx| |].
      * intros i d _ Hd. apply sget_app_keep. destruct Hb as [m ->]. now apply sget_app_keep, sget_app_keep.
      * exists (closed_node first c). split; [|reflexivity]. apply sget_app_keep, sadd_new.
    + replace (S (List.length before)) with (List.length (before ++ [closed_node first c]))
        by (rewrite app_length; cbn; lia).
      apply IH; [exact Hg'|exact Hf'|]. destruct Hb as [m ->]. exists (m ++ [closed_node first c]).
      now rewrite app_assoc.
Qed.

Lemma Forall2_concat {A B} (R : A -> B -> Prop) cs : forall ys, Forall2 R (List.concat cs) ys ->
  exists yss, ys = List.concat yss /\ Forall2 (Forall2 R) cs yss.
Proof.
  induction cs as [|c cs IH]; intros ys H; cbn [List.concat] in H.
  - inversion H; subst. exists []. split; [reflexivity|constructor].
  - apply Forall2_app_inv_l in H as (y1 & y2 & H1 & H2 & ->).
    destruct (IH y2 H2) as (yss & -> & Hf). exists (y1 :: yss). split; [reflexivity|]. constructor; assumption.
Qed.

Lemma concat_concat {A} (l : list (list (list A))) : List.concat (List.concat l) = List.concat (map (@List.concat A) l).
Proof. induction l; cbn [List.concat map]; [reflexivity|]. now rewrite concat_app, IHl. Qed.

Definition dests_id (rd : dict) : option obj :=
  match dget (lit "Names") rd with Some (ODict n) => dget (lit "Dests") n | _ => None end.
Definition names_ok (rd : dict) : Prop :=
  match dget (lit "Names") rd with Some (ODict _) | None => True | _ => False end /\
  dget (lit "Kids") rd = None.

Lemma set_dests_id id rd : names_ok rd -> dests_id (set_dests id rd) = Some (oref id) /\
  forall k, k <> lit "Names" -> dget k (set_dests id rd) = dget k rd.
Proof.
  unfold names_ok, dests_id, set_dests, dmem. intros [H _].
  destruct (dget (lit "Names") rd) as [o|] eqn:E.
  - destruct o as [| |n| | | | | | |]; try contradiction. rewrite E.
    rewrite dget_dset_same. split; [apply dget_dset_same|]. intros k Hk. now apply dget_dset_other.
  - rewrite dget_dset_same. rewrite dget_dset_same. split; [reflexivity|].
    intros k Hk. rewrite !dget_dset_other by exact Hk. reflexivity.
Qed.

Theorem build_dests_tree_spec fuel : forall first st root rd l kvss,
  l <> [] -> (List.length l <= fuel)%nat -> (1 <= fuel)%nat -> sget st root = Some rd -> names_ok rd ->
  Forall2 (stands st first) l kvss ->
  exists st' n, build_dests_tree fuel first st root l = Ok st' /\
    sget st' root = Some (set_dests n rd) /\ n <> root /\
    name_tree st' true n (List.concat kvss) /\
    (forall id d, id <> root -> sget st id = Some d -> sget st' id = Some d).
Proof.
  induction fuel as [|fuel IH]; intros first st root rd l kvss Hne Hlen Hpos Hroot Hnames Hst; [lia|].
  destruct (cut_groups l Hne) as (cs & Hcs & Hg & Hcne & Hc1 & Hc2).
  cbn [build_dests_tree]. rewrite <- Hcs. rewrite loop_groups by (auto; reflexivity).
  cbn [Nat.add app]. rewrite <- Hcs in Hst. apply Forall2_concat in Hst as (yss & -> & Hyss).
  assert (Hrl := sget_some_lt _ _ _ Hroot).
  destruct (List.length cs =? 1)%nat eqn:E.
  - destruct cs as [|c [|c2 cs]]; cbn [List.length] in *; try lia. clear E Hc2.
    inversion Hyss as [|? k ? kvss' Hx Hf']; subst. inversion Hf'; subst.
    cbn [map List.concat] in *. rewrite app_nil_r.
    replace (List.length st + 1)%nat with (S (List.length st)) by lia. rewrite supd_last.
    set (nd := dpop (lit "Limits") (closed_node first c)).
    assert (Hroot' : sget (st ++ [nd]) root = Some rd) by now apply sadd_keep.
    eexists _, (S (List.length st)). split; [reflexivity|].
    split; [apply supd_same, Hroot'|]. split; [lia|]. split.
    + eapply (group_node st _ first c k _ true); [cbn in Hg; tauto|exact Hx| |].
      * intros i d Hnd Hd. assert (Hi : i <> root \/ i = root) by lia.
        (* the catalog is never a tree node: only its dictionary changes *)
        destruct Hi as [Hi|Hi].
        -- rewrite supd_other by lia. now apply sadd_keep.
        -- subst i. rewrite Hroot in Hd. injection Hd as <-. exfalso. destruct Hnames as [N1 N2].
           destruct Hnd as [[l' Hl']|[l' Hl']]; [rewrite Hl' in N1; exact N1|congruence].
      * exists nd. split; [rewrite supd_other by lia; apply sadd_new|reflexivity].
    + intros id d Hid Hd. rewrite supd_other by lia. now apply sadd_keep.
  - destruct (IH false (st ++ map (closed_node first) cs) root rd
                (node_entries (List.length st) cs) (map (@List.concat _) yss))
      as (st' & n & E1 & E2 & E3 & E4 & E5); try assumption.
    + destruct cs; [congruence|discriminate].
    + assert (Hl : List.length (node_entries (List.length st) cs) = List.length cs).
      { clear. generalize (List.length st). induction cs; intros n; cbn; auto. }
      rewrite Hl. destruct (Nat.le_gt_cases 2 (List.length l)); [lia|].
      destruct cs as [|c [|c2 cs]]; cbn [List.length] in *; lia.
    + destruct cs as [|c [|c2 cs]]; cbn [List.length] in *; try congruence; lia.
    + now apply sget_app_keep.
    + apply (level_stands first st cs st yss Hg Hyss). exists []. now rewrite app_nil_r.
    + exists st', n. split; [exact E1|]. split; [exact E2|]. split; [exact E3|]. split.
      * assert (Hcc := concat_concat (yss : list (list (list (str * obj))))). unfold dict in *. rewrite Hcc. exact E4.
      * intros id d Hid Hd. apply E5; [exact Hid|]. now apply sget_app_keep.
Qed.

(** ** Looking a name up *)

Lemma name_tree_nested (st : store) (P : bool -> nat -> dict -> Prop) :
  (forall rt id d kvs, sget st id = Some d -> kvs <> [] ->
    dget (lit "Names") d = Some (OSeq (flat_map (fun kv => [OStr (fst kv); snd kv]) kvs)) ->
    dget (lit "Kids") d = None -> limits_ok rt d kvs -> P rt id kvs) ->
  (forall rt id d kids kvss, sget st id = Some d -> kids <> [] ->
    dget (lit "Names") d = None ->
    dget (lit "Kids") d = Some (OSeq (map oref kids)) ->
    Forall2 (name_tree st false) kids kvss -> Forall2 (P false) kids kvss ->
    limits_ok rt d (List.concat kvss) -> P rt id (List.concat kvss)) ->
  forall rt id kvs, name_tree st rt id kvs -> P rt id kvs.
Proof.
  intros Hl Hn. fix IH 4. intros rt id kvs H.
  destruct H as [rt id d kvs Hd Hne HN Hk Hlim|rt id d kids kvss Hd Hne HN Hk Hf Hlim].
  - eapply Hl; eauto.
  - eapply Hn; eauto. clear Hne Hk Hlim. induction Hf; constructor; auto.
Qed.

Lemma sorted_app a b : StronglySorted str_lt (a ++ b) ->
  StronglySorted str_lt a /\ StronglySorted str_lt b /\ forall x y, In x a -> In y b -> str_lt x y.
Proof.
  induction a as [|z a IH]; cbn [app]; intros H.
  - split; [constructor|]. split; [exact H|]. intros x y [].
  - inversion H as [|? ? Hs Hf]; subst. destruct (IH Hs) as (I1 & I2 & I3).
    rewrite Forall_app in Hf. destruct Hf as [F1 F2]. rewrite Forall_forall in F1, F2.
    split; [constructor; [exact I1|now apply Forall_forall]|]. split; [exact I2|].
    intros x y [<-|Hx] Hy; [now apply F2|now apply I3].
Qed.

Lemma str_leb_lt a b : str_lt a b -> str_leb a b = true.
Proof.
  unfold str_lt, str_leb. intros H. destruct (str_ltb b a) eqn:E; [|reflexivity].
  assert (Hc := str_ltb_trans _ _ _ H E). now rewrite str_ltb_irrefl in Hc.
Qed.
Lemma str_leb_refl a : str_leb a a = true.
Proof. unfold str_leb. now rewrite str_ltb_irrefl. Qed.
Lemma lt_leb_lt a b c : str_lt a b -> str_leb b c = true -> str_lt a c.
Proof.
  unfold str_lt, str_leb. intros H1 H2. destruct (str_trichotomy b c) as [H|[->|H]]; auto.
  - eapply str_ltb_trans; eassumption.
  - rewrite H in H2. discriminate.
Qed.
Lemma leb_lt_lt a b c : str_leb a b = true -> str_lt b c -> str_lt a c.
Proof.
  unfold str_lt, str_leb. intros H1 H2. destruct (str_trichotomy a b) as [H|[->|H]]; auto.
  - eapply str_ltb_trans; eassumption.
  - rewrite H in H1. discriminate.
Qed.

Lemma sorted_first ks lo x : StronglySorted str_lt ks -> hd_error ks = Some lo -> In x ks -> str_leb lo x = true.
Proof.
  intros Hs Hh Hx. destruct ks as [|k ks]; [destruct Hx|]. injection Hh as ->.
  destruct Hx as [->|Hx]; [apply str_leb_refl|]. inversion Hs as [|? ? _ Hf]; subst.
  rewrite Forall_forall in Hf. apply str_leb_lt. now apply Hf.
Qed.
Lemma sorted_last ks x d : StronglySorted str_lt ks -> In x ks -> str_leb x (last ks d) = true.
Proof.
  intros Hs Hx. induction ks as [|k ks IH]; [destruct Hx|]. inversion Hs as [|? ? Hs' Hf]; subst.
  destruct ks as [|k2 ks].
  - destruct Hx as [->|[]]. apply str_leb_refl.
  - rewrite last_cons by discriminate. destruct Hx as [->|Hx]; [|now apply IH].
    apply str_leb_lt. rewrite Forall_forall in Hf. apply Hf.
    assert (Hl : k2 :: ks <> []) by discriminate. destruct (exists_last Hl) as (l' & z & ->).
    rewrite last_last. apply in_or_app. right. now left.
Qed.
Lemma last_in {A} (ks : list A) d : ks <> [] -> In (last ks d) ks.
Proof.
  intros H. destruct (exists_last H) as (l' & z & ->). rewrite last_last. apply in_or_app. right. now left.
Qed.
Lemma hd_in {A} (ks : list A) x : hd_error ks = Some x -> In x ks.
Proof. destruct ks; [discriminate|]. intros [= ->]. now left. Qed.

(** The choice a reader makes at an inner node. *)
Lemma find_kid st k kids kvss :
  Forall2 (name_tree st false) kids kvss -> StronglySorted str_lt (keys (List.concat kvss)) ->
  let chosen := find (fun o => match o with
                               | ORef z => match sget st (Z.to_nat z) with
                                           | Some dk => in_limits k dk
                                           | None => false
                                           end
                               | _ => false
                               end) (map oref kids) in
  (chosen = None /\ dget k (List.concat kvss) = None) \/
  exists i kid kvs, chosen = Some (oref kid) /\ nth_error kids i = Some kid /\ nth_error kvss i = Some kvs /\
    StronglySorted str_lt (keys kvs) /\ dget k (List.concat kvss) = dget k kvs.
Proof.
  intros Hf. induction Hf as [|kid kvs kids kvss Hx Hf IH]; intros Hs; cbn zeta.
  - left. split; reflexivity.
  - cbn [List.concat] in Hs |- *. rewrite keys_app in Hs. apply sorted_app in Hs as (S1 & S2 & S3).
    cbn [map find oref]. rewrite Nat2Z.id.
    assert (Hd : exists d, sget st kid = Some d /\ limits_ok false d kvs).
    { inversion Hx; subst; eauto. }
    destruct Hd as (d & Hd & lo & hi & L1 & L2 & L3). rewrite Hd.
    assert (Hil : in_limits k d = str_leb lo k && str_leb k hi) by (unfold in_limits; now rewrite L1).
    rewrite Hil.
    assert (Hin : In k (keys kvs) -> str_leb lo k && str_leb k hi = true).
    { intros Hk. rewrite (sorted_first _ _ _ S1 L2 Hk). rewrite <- L3. now rewrite (sorted_last _ _ [] S1 Hk). }
    destruct (str_leb lo k && str_leb k hi) eqn:E.
    + right. exists 0%nat, kid, kvs. split; [reflexivity|]. split; [reflexivity|]. split; [reflexivity|].
      split; [exact S1|]. rewrite dget_app. destruct (dget k kvs) eqn:Ek; [reflexivity|].
      apply dget_none. intros Hk. apply andb_true_iff in E as [E1 E2].
      assert (Hlt : str_lt k k).
      { eapply leb_lt_lt; [exact E2|]. apply S3; [|exact Hk]. rewrite <- L3.
        apply last_in. destruct (keys kvs); [discriminate|discriminate]. }
      unfold str_lt in Hlt. now rewrite str_ltb_irrefl in Hlt.
    + assert (Hno : dget k kvs = None).
      { apply dget_none. intros Hk. specialize (Hin Hk). congruence. }
      rewrite dget_app, Hno. destruct (IH S2) as [[I1 I2]|(i & kid' & kvs' & I1 & I2 & I3 & I4 & I5)].
      * left. split; [exact I1|exact I2].
      * right. exists (S i), kid', kvs'. auto.
Qed.

Lemma Forall2_nth {A B} (R : A -> B -> Prop) l l' i x y : Forall2 R l l' ->
  nth_error l i = Some x -> nth_error l' i = Some y -> R x y.
Proof.
  intros Hf. revert i. induction Hf as [|a b l l' Hab Hf IH]; intros [|i]; cbn; try discriminate.
  - intros [= <-] [= <-]. exact Hab.
  - apply IH.
Qed.

Lemma pair_search_spec k kvs :
  pair_search k (flat_map (fun kv => [OStr (fst kv); snd kv]) kvs) = dget k kvs.
Proof.
  induction kvs as [|[k' v] kvs IH]; [reflexivity|]. cbn [flat_map app pair_search fst snd dget].
  destruct (str_eqb k k'); [reflexivity|exact IH].
Qed.

Theorem name_lookup_spec st rt id kvs k : name_tree st rt id kvs -> StronglySorted str_lt (keys kvs) ->
  exists n, forall fuel, (n <= fuel)%nat -> name_lookup fuel st id k = dget k kvs.
Proof.
  intros H. induction H using name_tree_nested; intros Hs.
  - exists 1%nat. intros [|fuel] Hle; [lia|]. cbn [name_lookup]. rewrite H, H1. apply pair_search_spec.
  - destruct (find_kid st k kids kvss H3 Hs) as [[F1 F2]|(i & kid & kvs & F1 & F2 & F3 & F4 & F5)].
    + exists 1%nat. intros [|fuel] Hle; [lia|]. cbn [name_lookup]. rewrite H, H1, H2, F1. now rewrite F2.
    + destruct (Forall2_nth _ _ _ _ _ _ H4 F2 F3 F4) as [n Hn].
      exists (S n). intros [|fuel] Hle; [lia|]. cbn [name_lookup]. rewrite H, H1, H2, F1. cbn [oref].
      rewrite Nat2Z.id, F5. apply Hn. lia.
Qed.

(** ** The whole of [_build_dests] *)
Theorem build_dests_spec st root rd dests :
  sget st root = Some rd -> names_ok rd -> NoDup (keys dests) -> dests <> [] ->
  exists st' n, build_dests st root dests = Ok st' /\
    sget st' root = Some (set_dests n rd) /\ n <> root /\
    name_tree st' true n (sort_keys dests) /\ StronglySorted str_lt (keys (sort_keys dests)) /\
    (forall id d, id <> root -> sget st id = Some d -> sget st' id = Some d).
Proof.
  intros Hr Hn Hnd Hne. destruct (sort_keys_spec dests Hnd) as (S1 & S2 & S3 & S4).
  set (l := map (fun kv => DLeaf (fst kv) (snd kv)) (sort_keys dests)).
  destruct (build_dests_tree_spec (List.length dests) true st root rd l (map (fun kv => [kv]) (sort_keys dests)))
    as (st' & n & E1 & E2 & E3 & E4 & E5); try assumption.
  - unfold l. intros H. apply map_eq_nil in H. rewrite H in S4. destruct dests; [congruence|discriminate].
  - unfold l. rewrite map_length, S4. lia.
  - destruct dests; [congruence|cbn; lia].
  - unfold l. clear. induction (sort_keys dests) as [|[k v] r IH]; cbn [map fst snd]; constructor; auto.
    cbn. auto.
  - exists st', n. unfold build_dests. destruct dests as [|kv r]; [congruence|].
    split; [exact E1|]. split; [exact E2|]. split; [exact E3|]. split; [|auto].
    replace (sort_keys (kv :: r)) with (List.concat (map (fun kv => [kv]) (sort_keys (kv :: r)))); [exact E4|].
    clear. induction (sort_keys (kv :: r)) as [|x l IH]; cbn; [reflexivity|]. now f_equal.
Qed.
