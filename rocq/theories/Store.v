(** The objects of a document as the code above [PDFBase] sees them: every
    object it adds is a dictionary, later updated in place through its id.
    [st_base] is the corresponding [PDFBase] (base.py 54-99): the id of the
    k-th dictionary is k. *)
From Verif Require Import Py Parser StreamProofs Base BaseProofs.
From Coq Require Import String.
Open Scope list_scope.

Definition dict := list (str * obj).
Definition store := list dict.

(** base.py 65-91 for a dictionary: the new id and the new store. *)
Definition sadd (st : store) (d : dict) : nat * store := (S (List.length st), st ++ [d]).
(** base.py 93-95 for a positive id. *)
Definition sget (st : store) (id : nat) : option dict :=
  match id with O => None | S i => nth_error st i end.
(** Update in place of the dictionary with the given id. *)
Fixpoint upd_nth {A} (i : nat) (f : A -> A) (l : list A) : list A :=
  match l, i with
  | [], _ => []
  | x :: r, O => f x :: r
  | x :: r, S j => x :: upd_nth j f r
  end.
Definition supd (st : store) (id : nat) (f : dict -> dict) : store :=
  match id with O => st | S i => upd_nth i f st end.
(** [obj[k] = v]. *)
Definition sset (st : store) (id : nat) (k : str) (v : obj) : store := supd st id (dset k v).

Definition oref (id : nat) : obj := ORef (Z.of_nat id).
Definition name (s : string) : obj := OBytes (lit s).

Fixpoint number_objs (i : N) (st : store) : list obj :=
  match st with
  | [] => []
  | d :: r => OObj i (ODict d) :: number_objs (i + 1) r
  end.
Definition st_base (version : str) (trailer : dict) (st : store) : base :=
  mkBase version (number_objs 1 st) trailer (N.of_nat (S (List.length st))).

Lemma number_objs_app st : forall i d,
  number_objs i (st ++ [d]) = number_objs i st ++ [OObj (i + N.of_nat (List.length st)) (ODict d)].
Proof.
  induction st as [|e st IH]; intros i d; cbn [app number_objs List.length].
  - now rewrite N.add_0_r.
  - rewrite IH. cbn [app]. do 4 f_equal. lia.
Qed.

(** [sadd] is [PDFBase.add] of a dictionary. *)
Lemma sadd_base v t st d : base_add (st_base v t st) (ODict d) =
  (Ok (OObj (N.of_nat (fst (sadd st d))) (ODict d)), st_base v t (snd (sadd st d))).
Proof.
  unfold base_add, st_base, sadd. cbn [allowed b_count b_content b_version b_trailer fst snd].
  rewrite number_objs_app, app_length. cbn [List.length].
  replace (1 + N.of_nat (List.length st))%N with (N.of_nat (S (List.length st))) by lia.
  replace (N.of_nat (S (List.length st)) + 1)%N with (N.of_nat (S (List.length st + 1))) by lia.
  reflexivity.
Qed.

Lemma number_objs_nth st : forall i k, nth_error (number_objs i st) k =
  match nth_error st k with Some d => Some (OObj (i + N.of_nat k) (ODict d)) | None => None end.
Proof.
  induction st as [|d st IH]; intros i [|k]; cbn [number_objs nth_error]; try reflexivity.
  - now rewrite N.add_0_r.
  - rewrite IH. destruct (nth_error st k); [|reflexivity]. do 2 f_equal. lia.
Qed.

Lemma number_objs_len st : forall i, List.length (number_objs i st) = List.length st.
Proof. induction st; intros i; cbn; auto. Qed.

(** [sget] is [PDFBase.__getitem__]. *)
Lemma sget_base v t st id d : sget st id = Some d ->
  base_get (st_base v t st) (Z.of_nat id) = Ok (Some (OObj (N.of_nat id) (ODict d))).
Proof.
  destruct id as [|i]; [discriminate|]. cbn [sget]. intros H.
  assert (i < List.length st)%nat by (apply nth_error_Some; congruence).
  unfold base_get, st_base. cbn [b_content]. rewrite number_objs_len.
  replace (Z.of_nat (S i) =? 0)%Z with false by lia.
  unfold py_index. replace (Z.of_nat (S i) - 1 <? 0)%Z with false by lia.
  replace ((0 <=? Z.of_nat (S i) - 1)%Z && (Z.of_nat (S i) - 1 <? Z.of_nat (List.length st))%Z) with true by lia.
  replace (Z.to_nat (Z.of_nat (S i) - 1)) with i by lia.
  rewrite number_objs_nth, H. do 4 f_equal. lia.
Qed.

(** ** Laws *)
Lemma upd_nth_length {A} i (f : A -> A) l : List.length (upd_nth i f l) = List.length l.
Proof. revert i; induction l; intros [|i]; cbn; auto. Qed.
Lemma upd_nth_same {A} i (f : A -> A) l x : nth_error l i = Some x ->
  nth_error (upd_nth i f l) i = Some (f x).
Proof. revert i; induction l; intros [|i]; cbn; try discriminate; [congruence|auto]. Qed.
Lemma upd_nth_other {A} i j (f : A -> A) l : i <> j ->
  nth_error (upd_nth i f l) j = nth_error l j.
Proof. revert i j; induction l; intros [|i] [|j] H; cbn; auto; congruence. Qed.

Lemma supd_length st id f : List.length (supd st id f) = List.length st.
Proof. destruct id; [reflexivity|apply upd_nth_length]. Qed.
Lemma supd_same st id f d : sget st id = Some d -> sget (supd st id f) id = Some (f d).
Proof. destruct id; [discriminate|apply upd_nth_same]. Qed.
Lemma supd_other st id id2 f : id <> id2 -> sget (supd st id f) id2 = sget st id2.
Proof. destruct id, id2; cbn; auto. intros H. apply upd_nth_other. congruence. Qed.
Lemma supd_none st id f id2 : sget st id2 = None -> sget (supd st id f) id2 = None.
Proof.
  intros H. destruct (Nat.eq_dec id id2) as [->|Hne]; [|now rewrite supd_other].
  destruct id2; [reflexivity|]. cbn in *. apply nth_error_None. rewrite upd_nth_length.
  now apply nth_error_None.
Qed.

Lemma sget_lt st id : (exists d, sget st id = Some d) <-> (1 <= id <= List.length st)%nat.
Proof.
  destruct id as [|i]; cbn; [split; [intros [d H]; discriminate|lia]|]. split.
  - intros [d H]. assert (i < List.length st)%nat by (apply nth_error_Some; congruence). lia.
  - intros H. destruct (nth_error st i) eqn:E; [eauto|]. apply nth_error_None in E. lia.
Qed.
Lemma sget_some_lt st id d : sget st id = Some d -> (1 <= id <= List.length st)%nat.
Proof. intros H. apply sget_lt. eauto. Qed.

Lemma sadd_new st d : sget (st ++ [d]) (S (List.length st)) = Some d.
Proof. cbn. rewrite nth_error_app2 by lia. now rewrite Nat.sub_diag. Qed.
Lemma sadd_old st d id : id <> S (List.length st) -> sget (st ++ [d]) id = sget st id.
Proof.
  destruct id as [|i]; [reflexivity|]. cbn. intros H.
  destruct (Nat.lt_ge_cases i (List.length st)) as [Hl|Hl].
  - now apply nth_error_app1.
  - rewrite (proj2 (nth_error_None (st ++ [d]) i)), (proj2 (nth_error_None st i)); auto.
    rewrite app_length. cbn. lia.
Qed.
Lemma sadd_keep st d id e : sget st id = Some e -> sget (st ++ [d]) id = Some e.
Proof. intros H. rewrite sadd_old; [exact H|]. apply sget_some_lt in H. lia. Qed.
