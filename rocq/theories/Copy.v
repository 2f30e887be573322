(** A memory of Python lists, dicts and tuples, and [copy] of pdfme/utils.py. *)
From Coq Require Import Lia.
From Verif Require Import Py.
Open Scope list_scope.
Open Scope nat_scope.

Section Memory.
(** Keys, and what is not a list, a dict or a tuple: numbers, strings and the
    objects of paragraphs and tables. *)
Context {K A : Type}.
Inductive val := VAtom (a : A) | VRef (l : nat).
Inductive cell := CList (vs : list val) | CDict (kvs : list (K * val)) | CTuple (vs : list val).
Definition mem := list cell.

(** utils.py 363-379 [copy]: lists and dicts are made anew, with copies inside;
    the rest, tuples too, is the same.  The depth is bounded by fuel. *)
Fixpoint copies {X} (cp : mem -> val -> option (mem * val)) (h : mem) (l : list (X * val)) : option (mem * list (X * val)) :=
  match l with
  | [] => Some (h, [])
  | (k, v) :: r => match cp h v with
                   | Some (h1, v1) => match copies cp h1 r with Some (h2, r2) => Some (h2, (k, v1) :: r2) | None => None end
                   | None => None
                   end
  end.
Definition bare (vs : list val) : list (unit * val) := map (fun v => (tt, v)) vs.
Fixpoint copy (fuel : nat) (h : mem) (v : val) : option (mem * val) :=
  match v with
  | VAtom _ => Some (h, v)
  | VRef l =>
      match fuel, nth_error h l with
      | S n, Some (CList vs) => match copies (copy n) h (bare vs) with Some (h1, r) => Some (h1 ++ [CList (map snd r)], VRef (length h1)) | None => None end
      | S n, Some (CDict kvs) => match copies (copy n) h kvs with Some (h1, r) => Some (h1 ++ [CDict r], VRef (length h1)) | None => None end
      | _, Some (CTuple _) => Some (h, v)
      | _, _ => None
      end
  end.

(** The value that is seen from a reference: a tree of lists and dicts, with
    atoms and tuples at the leaves. *)
Inductive tree := TAtom (a : A) | TList (ts : list tree) | TDict (kts : list (K * tree)) | TTuple (l : nat).
Fixpoint reads {X} (rd : val -> option tree) (l : list (X * val)) : option (list (X * tree)) :=
  match l with
  | [] => Some []
  | (k, v) :: r => match rd v, reads rd r with Some t, Some ts => Some ((k, t) :: ts) | _, _ => None end
  end.
Fixpoint read (fuel : nat) (h : mem) (v : val) : option tree :=
  match v with
  | VAtom a => Some (TAtom a)
  | VRef l =>
      match fuel, nth_error h l with
      | S n, Some (CList vs) => match reads (read n h) (bare vs) with Some ts => Some (TList (map snd ts)) | None => None end
      | S n, Some (CDict kvs) => match reads (read n h) kvs with Some ts => Some (TDict ts) | None => None end
      | _, Some (CTuple _) => Some (TTuple l)
      | _, _ => None
      end
  end.
(** The lists and dicts that are met when a value is read. *)
Fixpoint cells (fuel : nat) (h : mem) (v : val) : list nat :=
  match v with
  | VAtom _ => []
  | VRef l =>
      match fuel, nth_error h l with
      | S n, Some (CList vs) => l :: flat_map (cells n h) vs
      | S n, Some (CDict kvs) => l :: flat_map (fun kv => cells n h (snd kv)) kvs
      | _, _ => []
      end
  end.

(** Reading only looks at the cells that are met; a tuple stays a tuple. *)
Definition still (h h2 : mem) : Prop := forall l vs, nth_error h l = Some (CTuple vs) -> nth_error h2 l = Some (CTuple vs).
Lemma read_same n : forall h h2 v t, read n h v = Some t -> still h h2 -> (forall l, In l (cells n h v) -> nth_error h2 l = nth_error h l) -> read n h2 v = Some t.
Proof.
  induction n as [|n IH]; intros h h2 v t; destruct v as [a|l]; cbn [read cells]; auto.
  - destruct (nth_error h l) as [[]|] eqn:El; try discriminate. intros H Hs _. rewrite (Hs _ _ El). exact H.
  - intros H Hs Hin.
    assert (Hr : forall X (kvs : list (X * val)) ts, reads (read n h) kvs = Some ts -> (forall x, In x (flat_map (fun kv => cells n h (snd kv)) kvs) -> nth_error h2 x = nth_error h x) -> reads (read n h2) kvs = Some ts).
    { intros X kvs. induction kvs as [|[k v] r IHr]; cbn [reads flat_map]; intros ts H0 H1; [exact H0|].
      destruct (read n h v) as [t0|] eqn:Et; [|discriminate]. destruct (reads (read n h) r) as [ts0|] eqn:Ets; [|discriminate]. injection H0 as <-.
      rewrite (IH h h2 v t0 Et Hs) by (intros x Hx; apply H1; apply in_or_app; left; exact Hx). rewrite (IHr ts0 eq_refl) by (intros x Hx; apply H1; apply in_or_app; right; exact Hx). reflexivity. }
    destruct (nth_error h l) as [[vs|kvs|vs]|] eqn:El; try discriminate.
    + rewrite (Hin l (or_introl eq_refl)), El. destruct (reads (read n h) (bare vs)) as [ts|] eqn:Et; [|discriminate]. rewrite (Hr _ _ _ Et); [exact H|].
      intros x Hx. apply Hin. right. unfold bare in Hx. rewrite flat_map_concat_map, map_map, <- flat_map_concat_map in Hx. exact Hx.
    + rewrite (Hin l (or_introl eq_refl)), El. destruct (reads (read n h) kvs) as [ts|] eqn:Et; [|discriminate]. rewrite (Hr _ _ _ Et); [exact H|]. intros x Hx. apply Hin. right. exact Hx.
    + rewrite (Hs _ _ El). exact H.
Qed.
Lemma cells_same n : forall h h2 v t, read n h v = Some t -> still h h2 -> (forall l, In l (cells n h v) -> nth_error h2 l = nth_error h l) -> cells n h2 v = cells n h v.
Proof.
  induction n as [|n IH]; intros h h2 v t; destruct v as [a|l]; cbn [read cells]; auto.
  intros H Hs Hin.
    assert (Hr : forall X (kvs : list (X * val)) ts, reads (read n h) kvs = Some ts -> (forall x, In x (flat_map (fun kv => cells n h (snd kv)) kvs) -> nth_error h2 x = nth_error h x) ->
      flat_map (fun kv => cells n h2 (snd kv)) kvs = flat_map (fun kv => cells n h (snd kv)) kvs).
    { intros X kvs. induction kvs as [|[k v] r IHr]; cbn [reads flat_map]; intros ts H0 H1; [reflexivity|].
      destruct (read n h v) as [t0|] eqn:Et; [|discriminate]. destruct (reads (read n h) r) as [ts0|] eqn:Ets; [|discriminate].
      cbn [snd]. rewrite (IH h h2 v t0 Et Hs) by (intros x Hx; apply H1; apply in_or_app; left; exact Hx). f_equal. apply (IHr ts0 eq_refl). intros x Hx; apply H1; apply in_or_app; right; exact Hx. }
    assert (Hb : forall (vs : list val) h0, flat_map (fun kv => cells n h0 (snd kv)) (bare vs) = flat_map (cells n h0) vs) by (intros vs h0; unfold bare; rewrite !flat_map_concat_map, map_map; reflexivity).
    destruct (nth_error h l) as [[vs|kvs|vs]|] eqn:El; try discriminate.
    + rewrite (Hin l (or_introl eq_refl)), El. destruct (reads (read n h) (bare vs)) as [ts|] eqn:Et; [|discriminate]. f_equal. rewrite <- !Hb. apply (Hr _ _ _ Et).
      intros x Hx. apply Hin. right. rewrite <- Hb. exact Hx.
    + rewrite (Hin l (or_introl eq_refl)), El. destruct (reads (read n h) kvs) as [ts|] eqn:Et; [|discriminate]. f_equal. apply (Hr _ _ _ Et). intros x Hx. apply Hin. right. exact Hx.
    + rewrite (Hs _ _ El). reflexivity.
Qed.
Lemma prefix_nth (h x : mem) l c : nth_error h l = Some c -> nth_error (h ++ x) l = Some c.
Proof. intros H. rewrite nth_error_app1; [exact H|]. apply nth_error_Some. congruence. Qed.
Lemma prefix_still (h x : mem) : still h (h ++ x).
Proof. intros l vs. apply prefix_nth. Qed.
Lemma cells_in n : forall h v l, In l (cells n h v) -> exists c, nth_error h l = Some c.
Proof.
  induction n as [|n IH]; intros h [a|r] l; cbn [cells]; try (intros []; fail).
  destruct (nth_error h r) as [[vs|kvs|vs]|] eqn:Er; try (intros []; fail); intros [<-|H]; eauto.
    + apply in_flat_map in H. destruct H as (v & _ & H). eauto.
    + apply in_flat_map in H. destruct H as (v & _ & H). eauto.
Qed.
Lemma read_grow n h x v t : read n h v = Some t -> read n (h ++ x) v = Some t /\ cells n (h ++ x) v = cells n h v.
Proof.
  intros H. assert (Hc : forall l, In l (cells n h v) -> nth_error (h ++ x) l = nth_error h l) by (intros l Hl; destruct (cells_in _ _ _ _ Hl) as [c Hc]; rewrite Hc; apply prefix_nth; exact Hc).
  split; [apply (read_same n h); auto; apply prefix_still|apply (cells_same n h _ v t); auto; apply prefix_still].
Qed.

(** A copy reads the same, and all the lists and dicts in it are new; what was
    there is as it was. *)
Definition copied (n : nat) (h : mem) (t : tree) (h1 : mem) (v1 : val) : Prop :=
  (exists x, h1 = h ++ x) /\ read n h1 v1 = Some t /\ Forall (fun l => length h <= l < length h1) (cells n h1 v1).
Lemma copy_ok n : forall h v t, read n h v = Some t -> exists h1 v1, copy n h v = Some (h1, v1) /\ copied n h t h1 v1.
Proof.
  induction n as [|n IH]; intros h v t; destruct v as [a|l]; cbn [read copy].
  - intros H. injection H as <-. exists h, (VAtom a). split; [reflexivity|]. split; [exists []; rewrite app_nil_r; reflexivity|]. split; [reflexivity|constructor].
  - destruct (nth_error h l) as [[]|] eqn:El; try discriminate. intros H. injection H as <-. exists h, (VRef l). split; [reflexivity|]. split; [exists []; rewrite app_nil_r; reflexivity|]. cbn [read cells]. rewrite El. split; [reflexivity|constructor].
  - intros H. injection H as <-. exists h, (VAtom a). split; [reflexivity|]. split; [exists []; rewrite app_nil_r; reflexivity|]. split; [reflexivity|constructor].
  - assert (Hl : forall X (kvs : list (X * val)) h0 ts, reads (read n h0) kvs = Some ts ->
       exists h1 r, copies (copy n) h0 kvs = Some (h1, r) /\ (exists x, h1 = h0 ++ x) /\ reads (read n h1) r = Some ts /\
         Forall (fun q => length h0 <= q < length h1) (flat_map (fun kv => cells n h1 (snd kv)) r)).
    { intros X kvs. induction kvs as [|[k v] r IHr]; intros h0 ts; cbn [reads copies].
      - intros H. injection H as <-. exists h0, []. split; [reflexivity|]. split; [exists []; rewrite app_nil_r; reflexivity|]. split; [reflexivity|constructor].
      - destruct (read n h0 v) as [t0|] eqn:Et; [|discriminate]. destruct (reads (read n h0) r) as [ts0|] eqn:Ets; [|discriminate]. intros H. injection H as <-.
        destruct (IH h0 v t0 Et) as (h1 & v1 & E1 & (x1 & X1) & R1 & C1). rewrite E1.
        assert (Ets1 : reads (read n h1) r = Some ts0).
        { rewrite X1. clear -Ets. revert ts0 Ets. induction r as [|[k v] r IHr]; cbn [reads]; intros ts0 H; [exact H|]. destruct (read n h0 v) as [t0|] eqn:Et; [|discriminate]. destruct (reads (read n h0) r) as [ts1|] eqn:E1; [|discriminate].
          destruct (read_grow n h0 x1 v t0 Et) as [-> _]. rewrite (IHr _ eq_refl). exact H. }
        destruct (IHr h1 ts0 Ets1) as (h2 & r2 & E2 & (x2 & X2) & R2 & C2). rewrite E2. exists h2, ((k, v1) :: r2). split; [reflexivity|]. split; [exists (x1 ++ x2); rewrite X2, X1, app_assoc; reflexivity|].
        destruct (read_grow n h1 x2 v1 t0 R1) as [G1 G2]. rewrite <- X2 in G1, G2. cbn [reads flat_map snd]. rewrite G1, R2, G2. split; [reflexivity|].
        assert (L1 : length h0 <= length h1 <= length h2) by (rewrite X2, X1, !app_length; lia).
        apply Forall_app. split; (eapply Forall_impl; [|eassumption]); cbn; intros; lia. }
    assert (Hb : forall (vs : list val) h0, flat_map (fun kv => cells n h0 (snd kv)) (bare vs) = flat_map (cells n h0) vs) by (intros vs h0; unfold bare; rewrite !flat_map_concat_map, map_map; reflexivity).
    assert (Hgr : forall X (r : list (X * val)) h0 x ts, reads (read n h0) r = Some ts -> reads (read n (h0 ++ x)) r = Some ts /\ flat_map (fun kv => cells n (h0 ++ x) (snd kv)) r = flat_map (fun kv => cells n h0 (snd kv)) r).
    { intros X r. induction r as [|[k v] r IHr]; intros h0 x ts; cbn [reads flat_map snd]; [auto|]. destruct (read n h0 v) as [t0|] eqn:Et; [|discriminate]. destruct (reads (read n h0) r) as [ts0|] eqn:Ets; [|discriminate].
      destruct (read_grow n h0 x v t0 Et) as [-> ->]. destruct (IHr h0 x ts0 Ets) as [-> ->]. auto. }
    assert (Hbare : forall (r : list (unit * val)), bare (map snd r) = r) by (induction r as [|[[] v] r IHr]; cbn; [reflexivity|]; unfold bare in IHr; rewrite IHr; reflexivity).
    destruct (nth_error h l) as [[vs|kvs|vs]|] eqn:El; try discriminate.
    + destruct (reads (read n h) (bare vs)) as [ts|] eqn:Et; [|discriminate]. intros H. injection H as <-.
      destruct (Hl _ _ _ _ Et) as (h1 & r & E1 & (x & X1) & R1 & C1). rewrite E1. eexists _, _. split; [reflexivity|]. split; [exists (x ++ [CList (map snd r)]); rewrite X1, <- app_assoc; reflexivity|].
      cbn [read cells]. rewrite nth_error_app2, Nat.sub_diag by lia. cbn [nth_error]. rewrite Hbare. destruct (Hgr _ r h1 [CList (map snd r)] ts R1) as [-> G2]. split; [reflexivity|].
      constructor; [rewrite X1, !app_length; cbn; lia|]. rewrite <- Hb, Hbare, G2. eapply Forall_impl; [|exact C1]. cbn. intros q Hq. rewrite app_length. cbn. lia.
    + destruct (reads (read n h) kvs) as [ts|] eqn:Et; [|discriminate]. intros H. injection H as <-.
      destruct (Hl _ _ _ _ Et) as (h1 & r & E1 & (x & X1) & R1 & C1). rewrite E1. eexists _, _. split; [reflexivity|]. split; [exists (x ++ [CDict r]); rewrite X1, <- app_assoc; reflexivity|].
      cbn [read cells]. rewrite nth_error_app2, Nat.sub_diag by lia. cbn [nth_error]. destruct (Hgr _ r h1 [CDict r] ts R1) as [-> G2]. split; [reflexivity|].
      constructor; [rewrite X1, !app_length; cbn; lia|]. rewrite G2. eapply Forall_impl; [|exact C1]. cbn. intros q Hq. rewrite app_length. cbn. lia.
    + intros H. injection H as <-. exists h, (VRef l). split; [reflexivity|]. split; [exists []; rewrite app_nil_r; reflexivity|]. cbn [read cells]. rewrite El. split; [reflexivity|constructor].
Qed.

(** The state of a box: content.py 348-352; what [get_state] (397-410) returns,
    and what [set_state] (412-432) does with it. *)
Record box := mkBox { b_index : nat; b_delayed : val; b_memory : val }.
Definition box_get (fuel : nat) (h : mem) (b : box) : option (mem * box) :=
  match copy fuel h (b_delayed b) with
  | Some (h1, d) => match copy fuel h1 (b_memory b) with Some (h2, m) => Some (h2, mkBox (b_index b) d m) | None => None end
  | None => None
  end.
Definition box_set (fuel : nat) (h : mem) (st : box) : option (mem * box) := box_get fuel h st.
Definition seen (n : nat) (h : mem) (b : box) : option (nat * tree * tree) :=
  match read n h (b_delayed b), read n h (b_memory b) with Some d, Some m => Some (b_index b, d, m) | _, _ => None end.
Definition box_cells (n : nat) (h : mem) (b : box) : list nat := cells n h (b_delayed b) ++ cells n h (b_memory b).
Lemma box_copy n h b t : seen n h b = Some t -> exists h1 b1, box_get n h b = Some (h1, b1) /\ (exists x, h1 = h ++ x) /\ seen n h1 b1 = Some t /\ Forall (fun l => length h <= l < length h1) (box_cells n h1 b1).
Proof.
  unfold seen, box_get. destruct (read n h (b_delayed b)) as [td|] eqn:Ed; [|discriminate]. destruct (read n h (b_memory b)) as [tm|] eqn:Em; [|discriminate]. intros H. injection H as <-.
  destruct (copy_ok n h _ td Ed) as (h1 & d & E1 & (x1 & X1) & R1 & C1). rewrite E1. destruct (read_grow n h x1 _ tm Em) as [Em1 _]. rewrite <- X1 in Em1.
  destruct (copy_ok n h1 _ tm Em1) as (h2 & m & E2 & (x2 & X2) & R2 & C2). rewrite E2. exists h2, (mkBox (b_index b) d m). split; [reflexivity|]. split; [exists (x1 ++ x2); rewrite X2, X1, app_assoc; reflexivity|].
  destruct (read_grow n h1 x2 d td R1) as [G1 G2]. rewrite <- X2 in G1, G2. cbn [b_delayed b_memory b_index]. rewrite G1, R2. split; [reflexivity|]. unfold box_cells. cbn [b_delayed b_memory]. rewrite G2.
  assert (L1 : length h <= length h1 <= length h2) by (rewrite X2, X1, !app_length; lia). apply Forall_app. split; (eapply Forall_impl; [|eassumption]); cbn; intros; lia.
Qed.
Lemma seen_same n h h2 b t : seen n h b = Some t -> still h h2 -> (forall l, In l (box_cells n h b) -> nth_error h2 l = nth_error h l) -> seen n h2 b = Some t.
Proof.
  unfold seen, box_cells. destruct (read n h (b_delayed b)) as [td|] eqn:Ed; [|discriminate]. destruct (read n h (b_memory b)) as [tm|] eqn:Em; [|discriminate]. intros H Hs Hin.
  rewrite (read_same n h h2 _ td Ed Hs) by (intros l Hl; apply Hin; apply in_or_app; auto). rewrite (read_same n h h2 _ tm Em Hs) by (intros l Hl; apply Hin; apply in_or_app; auto). exact H.
Qed.
End Memory.
