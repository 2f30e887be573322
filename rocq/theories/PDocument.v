(** Theorems for C53: page styles, rules per page and running sections of a
    document. *)
From Coq Require Import String QArith ZArith Lia List Permutation Lqa.
From Verif Require Import Py PyStr Parser StreamProofs Ranges Roman Margins PageGeom Document DocumentProofs DocNumber.
Import ListNotations.
Open Scope list_scope.

(** C53, the part that holds: for every document that is built, whatever its
    sections and running sections draw, and in whatever order python iterates a
    set: page [i] belongs to a section, the sections follow each other and each
    has at least one page; the running sections on the page are the section's,
    minus the excluded plus the included by the rules about [i], in order;
    their keys have the documented values on that page; the contents are between
    its margins; its size, rotation and margins are those of the last rule about
    [i] that has the key, else of the section, else of the document, else the
    defaults.  Missing: the last sentence when a key is given by some section or
    rule only ([settled]), and the keys with value None ([placed_as]): both are
    refuted below. *)
Theorem C53_pages_partial : forall float_of (C B : Type) fill draw iter (d : document C B) rules fuel s log,
  (forall l, Permutation (iter l) l) ->
  o_rules d = map written rules -> Forall valid_rule rules ->
  build float_of fill draw iter fuel d = Ok (s, log) ->
  length log = length (ps_pages s) /\
  (exists logs, log = concat logs /\ length logs = length (o_sections d) /\
    forall j es, nth_error logs j = Some es -> es <> [] /\ Forall (fun e => e_section e = j) es) /\
  forall i p e, nth_error (ps_pages s) i = Some p -> nth_error log i = Some e ->
    exists sec, nth_error (o_sections d) (e_section e) = Some sec /\
      let n := Z.of_nat i in
      ((forall x, In x (map fst (e_running e)) <-> shown x rules n (n_running sec)) /\
       NoDup (map fst (e_running e)) /\
       (forall x a, In (x, a) (e_running e) -> exists r, dget x (o_running d) = Some r /\ placed_as p r a)) /\
      rect_ok p e /\
      (settled y_size d rules -> settled y_rot d rules -> size_ok d rules sec n p) /\
      (settled y_margin d rules -> margin_ok float_of d rules sec n p).
Proof.
  intros float_of C B fill draw iter d rules fuel s log Hi Hr Hv H.
  destruct (build_ok float_of fill draw iter Hi d rules fuel s log Hr Hv H) as [[H1 H2] H3].
  split; [exact H1|]. split; [exact H3|]. exact H2.
Qed.
Print Assumptions C53_pages_partial.

(** C53: the rectangle of a running section on its page, from the values above
    (distances are from the top of the page; the rectangle has the distance of
    its top from the bottom). *)
Theorem C53_rectangle : forall B (draw : B -> Q * Q * Q * Q -> page -> res (Q * Q)) name x y w h b p,
  draw_running draw (name, mkArgs (Some x) (Some y) (Some w) (Some h), b) p =
  draw b (x, (p_height p - y)%Q, w, h) (set_cursor p x (p_height p - y)%Q).
Proof. reflexivity. Qed.
Print Assumptions C53_rectangle.

(** A document with two sections of two pages and three rules; contents are
    numbers of pages, running sections draw nothing. *)
Definition ex_fill (c : nat) (_ : Q * Q * Q * Q) (_ : page) : res (nat * bool) := Ok (pred c, Nat.leb c 1).
Definition ex_draw (_ : unit) (_ : Q * Q * Q * Q) (p : page) : res (Q * Q) := Ok (p_x p, p_yb p).
Definition ex_float (_ : str) : res Q := Err ValueError.
Definition ex_build := build ex_float ex_fill ex_draw (@rev str) 10.

Definition ex_rules : list drule :=
  [ mkDRule [Span (0, 0)%nat (0, 0)%nat (Some 1%Z) 3%Z] (Some (mkPStyle None None (Some (MNum (10#1)))))
      (Some ([lit "head"], [lit "side"]));
    mkDRule [Single (0, 0)%nat 2%Z; Single (1, 0)%nat 3%Z] (Some (mkPStyle (Some (PNum (300#1))) None (Some (MNum (20#1)))))
      (Some ([], [lit "head"])) ].
Definition ex_doc : document nat unit :=
  mkDocument (mkPStyle (Some (PName (lit "letter"))) None (Some (MList [(70#1); (60#1)]%Q))) None None None
    [ (lit "head", mkRsec (Some (PosName (lit "full"))) (Some (PosName (lit "top"))) None None tt);
      (lit "foot", mkRsec None (Some (PosName (lit "bottom"))) (Some (PosName (lit "left"))) (Some (PosName (lit "bottom"))) tt);
      (lit "side", mkRsec (Some (PosName (lit "right"))) None (Some (PosName (lit "right"))) (Some (PosName (lit "top"))) tt) ]
    (map written ex_rules)
    [ mkSection (mkPStyle None None None) None None None [lit "head"; lit "foot"] 2%nat;
      mkSection (mkPStyle None None None) None None (Some true) [lit "head"] 2%nat ].

Example C53_applies :
  (forall l, Permutation (@rev str l) l) /\ Forall valid_rule ex_rules /\
  settled y_size ex_doc ex_rules /\ settled y_rot ex_doc ex_rules /\ settled y_margin ex_doc ex_rules /\
  exists s log, ex_build ex_doc = Ok (s, log) /\
    map (fun p => (p_width p, p_height p, p_mt p, p_mr p)) (ps_pages s) =
      [ (612#1, 792#1, 70#1, 60#1); (612#1, 792#1, 10#1, 10#1); (300#1, 300#1, 20#1, 20#1); (300#1, 300#1, 20#1, 20#1) ]%Q /\
    map (fun e => (e_section e, map fst (e_running e))) log =
      [ (0, [lit "foot"; lit "head"]); (0, [lit "side"; lit "foot"]); (1, [lit "head"; lit "side"]); (1, [lit "head"]) ]%nat.
Proof.
  split; [intros l; symmetry; apply Permutation_rev|].
  split; [apply Forall_forall; intros r [<-|[<-|[]]]; (split; [discriminate|]); intros it Hit; cbn in Hit; intuition (subst; exact I)|].
  split; [left; discriminate|].
  split.
  { right. right. split; [reflexivity|]. split.
    - intros n [<-|[<-|[]]]; reflexivity.
    - intros r [<-|[<-|[]]]; reflexivity. }
  split; [left; discriminate|].
  assert (H : exists r, ex_build ex_doc = Ok r) by (eexists; vm_compute; reflexivity).
  destruct (ex_build ex_doc) as [[s log]|] eqn:E; [|destruct H; discriminate].
  exists s, log. split; [reflexivity|]. clear H.
  assert (H : match ex_build ex_doc with Ok (s, log) =>
    map (fun p => (p_width p, p_height p, p_mt p, p_mr p)) (ps_pages s) =
      [ (612#1, 792#1, 70#1, 60#1); (612#1, 792#1, 10#1, 10#1); (300#1, 300#1, 20#1, 20#1); (300#1, 300#1, 20#1, 20#1) ]%Q /\
    map (fun e => (e_section e, map fst (e_running e))) log =
      [ (0, [lit "foot"; lit "head"]); (0, [lit "side"; lit "foot"]); (1, [lit "head"; lit "side"]); (1, [lit "head"]) ]%nat
    | Err _ => False end) by (vm_compute; split; reflexivity).
  rewrite E in H. exact H.
Qed.

(** C53 in full is false: the style of a rule is used on the following pages
    too, when the section and the document do not give the key.  One section of
    two pages, and a rule that rotates page 0: page 1 is rotated. *)
Definition bad_rules : list drule := [mkDRule [Single (0, 0)%nat 0%Z] (Some (mkPStyle None (Some true) None)) None].
Definition bad_doc : document nat unit :=
  mkDocument no_style None None None [] (map written bad_rules) [mkSection no_style None None None [] 2%nat].

Lemma unrotated {n sec} (d : document nat unit) rules p : (p_width p, p_height p) = (milli 841890, milli 595276) ->
  y_size (overlay defaults (own_style d sec)) = Some (PName (lit "a4")) ->
  y_rot (overlay defaults (own_style d sec)) = Some false ->
  (forall r, In r rules -> applies r n -> rule_has y_size r = None) ->
  (forall r, In r rules -> applies r n -> rule_has y_rot r = None) ->
  ~ size_ok d rules sec n p.
Proof.
  intros Hp Hz Hr N1 N2 (sz & rot & wh & D1 & D2 & S & E).
  destruct D1 as [(a & r & b & -> & A & V & _)|[D1 _]].
  { rewrite (N1 r) in V; [discriminate| |exact A]. apply in_or_app. right. now left. }
  destruct D2 as [(a & r & b & -> & A & V & _)|[D2 _]].
  { rewrite (N2 r) in V; [discriminate| |exact A]. apply in_or_app. right. now left. }
  rewrite Hz in D1. rewrite Hr in D2. injection D1 as <-. injection D2 as <-.
  apply size_is_pair in S. vm_compute in S. injection S as <-. rewrite Hp in E. vm_compute in E. discriminate.
Qed.

Theorem C53_style_refuted : exists d rules s log p sec,
  o_rules d = map written rules /\ Forall valid_rule rules /\ ex_build d = Ok (s, log) /\
  nth_error (ps_pages s) 1 = Some p /\ nth_error (o_sections d) 0 = Some sec /\
  (forall r, In r rules -> ~ applies r 1%Z) /\ ~ size_ok d rules sec 1 p.
Proof.
  exists bad_doc, bad_rules.
  destruct (ex_build bad_doc) as [[s log]|] eqn:E; [|vm_compute in E; discriminate].
  exists s, log.
  assert (H : match ex_build bad_doc with Ok (s, _) => match nth_error (ps_pages s) 1 with
     Some p => (p_width p, p_height p) = (milli 841890, milli 595276) | None => False end | Err _ => False end)
    by (vm_compute; reflexivity).
  rewrite E in H. destruct (nth_error (ps_pages s) 1) as [p|] eqn:Ep; [|destruct H].
  exists p. eexists. split; [reflexivity|].
  split; [apply Forall_forall; intros r [<-|[]]; (split; [discriminate|]); intros it [<-|[]]; exact I|].
  split; [reflexivity|]. split; [reflexivity|]. split; [reflexivity|].
  assert (N : forall r, In r bad_rules -> ~ applies r 1%Z).
  { intros r [<-|[]] (it & [<-|[]] & Hit). cbn in Hit. lia. }
  split; [exact N|].
  apply unrotated; [exact H|reflexivity|reflexivity| |]; intros r Hr Ha; destruct (N r Hr Ha).
Qed.
Print Assumptions C53_style_refuted.

(** The same from a section to the next: the second section has no style, and
    no rule exists, but its page is rotated as the first one's. *)
Definition bad_doc2 : document nat unit :=
  mkDocument no_style None None None [] []
    [mkSection (mkPStyle None (Some true) None) None None None [] 1%nat; mkSection no_style None None None [] 1%nat].
Theorem C53_section_style_refuted : exists d s log p sec,
  o_rules d = [] /\ ex_build d = Ok (s, log) /\
  nth_error (ps_pages s) 1 = Some p /\ nth_error (o_sections d) 1 = Some sec /\
  own_style d sec = no_style /\ ~ size_ok d [] sec 1 p.
Proof.
  exists bad_doc2.
  destruct (ex_build bad_doc2) as [[s log]|] eqn:E; [|vm_compute in E; discriminate].
  exists s, log.
  assert (H : match ex_build bad_doc2 with Ok (s, _) => match nth_error (ps_pages s) 1 with
     Some p => (p_width p, p_height p) = (milli 841890, milli 595276) | None => False end | Err _ => False end)
    by (vm_compute; reflexivity).
  rewrite E in H. destruct (nth_error (ps_pages s) 1) as [p|] eqn:Ep; [|destruct H].
  exists p. eexists. split; [reflexivity|]. split; [reflexivity|]. split; [reflexivity|]. split; [reflexivity|].
  split; [reflexivity|].
  apply unrotated; [exact H|reflexivity|reflexivity| |]; intros r [].
Qed.
Print Assumptions C53_section_style_refuted.

(** C53: a key x with value None is documented as 0, but the section is drawn
    from the left margin. *)
Theorem C53_none_refuted : exists (r : rsec unit) a p, rs_x r = Some PosNone /\
  add_page ex_float (mkPS (100#1) (100#1) false (combine sides [1#1; 2#1; 3#1; 4#1]%Q) [] 0 None 0 false []) None None None =
    (Ok tt, mkPS (100#1) (100#1) false (combine sides [1#1; 2#1; 3#1; 4#1]%Q) [p] 0 (Some (lit "1")) 0 false []) /\
  running_args (100#1) (100#1) (combine sides [1#1; 2#1; 3#1; 4#1]%Q) r = Ok a /\
  forall draw, exists x y w h p', draw_running draw (lit "r", a, rs_box r) p = draw tt (x, y, w, h) p' /\ ~ x_doc p (rs_x r) x.
Proof.
  exists (mkRsec None None (Some PosNone) None tt). do 2 eexists. split; [reflexivity|].
  split; [vm_compute; reflexivity|]. split; [reflexivity|].
  intros draw. do 5 eexists. split; [reflexivity|].
  unfold x_doc. cbn. unfold Qeq. cbn. lia.
Qed.
Print Assumptions C53_none_refuted.

(** C54 for a document: the pages of the sections follow each other, and the
    page of index [i] shows [i + 1] plus the offset of its section, in the
    section's style.  The offset is minus the index of the section's first
    page if the numbers start again, else as the section or else the document
    says, else as in the section before; at first it is 0 and the style is
    not roman. *)
Theorem C54_document : forall float_of (C B : Type) fill draw iter (d : document C B) fuel s log,
  build float_of fill draw iter fuel d = Ok (s, log) ->
  exists logs, log = concat logs /\ length logs = length (o_sections d) /\
    (forall j es, nth_error logs j = Some es -> es <> [] /\ Forall (fun e => e_section e = j) es) /\
    forall o r, (forall z, o_offset d = Some z -> o = z) -> (o_offset d = None -> o = 0%Z) ->
      (forall t, o_numstyle d = Some t -> (r = true <-> t = lit "roman")) -> (o_numstyle d = None -> r = false) ->
      numbered d o r 0 (o_sections d) logs.
Proof. intros. eapply build_numbers; eassumption. Qed.
Print Assumptions C54_document.
(** Three sections: roman from 3 on, then again from 1, then in digits with
    the offset kept. *)
Definition number_doc : document nat unit :=
  mkDocument (mkPStyle None None None) (Some 2%Z) (Some (lit "roman")) None [] []
    [ mkSection (mkPStyle None None None) None None None [] 2%nat;
      mkSection (mkPStyle None None None) None None (Some true) [] 2%nat;
      mkSection (mkPStyle None None None) (Some (-2)%Z) (Some (lit "arabic")) (Some false) [] 1%nat ].
Example C54_document_applies : match ex_build number_doc with
  | Ok (_, log) => map e_number log = map (fun t => Some (lit t)) ["III"; "IV"; "I"; "II"; "3"]%string
  | Err _ => False
  end.
Proof. vm_compute. reflexivity. Qed.
