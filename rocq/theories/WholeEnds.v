(** Invariants: contents with paragraphs, images, tables and boxes inside one
    another come nearer to their end with every page on which their lines and
    images fit, and no run of them fails. *)
From Coq Require Import QArith ZArith Lia Lqa List Bool.
From Verif Require Import Py Whole.
From Verif Require TextLayout TextProofs TextOrder TextTerm Table TableEnds Content ContentFlow ContentEnds.
Import ListNotations.
Open Scope list_scope.
Open Scope nat_scope.

(** ** What fits in a page of the height [H] and the width [W]
    For the elements of a kit: which of them fit, and which are empty. *)
Section Fits.
Context {F B : Type}.
Notation kit := (@kit F B).
Record room (k : kit) := mkRoom { fits : Q -> Q -> kE k -> Prop; none : kE k -> Prop }.

(** A paragraph: each of its lines, with the largest size and rise of its
    texts; if it is an item of a list, it starts with a text. *)
Variable round3 : Q -> Q.
Variable text_w : TextLayout.fkey -> str -> Q.
Variable space_w : TextLayout.fkey -> Q.
Variable fref : TextLayout.fkey -> str.
Notation text_kit := (@text_kit F B round3 text_w space_w fref).
Definition text_room : room text_kit :=
  mkRoom text_kit
    (fun H _ c => (TextLayout.c_list c = None \/ TextOrder.text_first (TextLayout.c_content c)) /\
                  exists M R, TextTerm.small c H M R)
    (fun c => TextProofs.all_toks (TextLayout.c_content c) = []).

(** An image in a cell: as high as it is at the full width of the page. *)
Definition image_room : room (@image_kit F B) :=
  mkRoom (@image_kit F B) (fun H W e => (0 < fst e /\ 0 <= snd e /\ W * snd e / fst e < H)%Q) (fun _ => False).

(** A box of one column: all of its elements. *)
Variable fuel : nat.
Definition content_room {k : kit} (r : room k) : room (content_kit fuel k) :=
  mkRoom (content_kit fuel k)
    (fun H W e => bx_cols e = 1 /\ ContentEnds.box_ok (O := kO k) (fits k r H W) fuel (bx_elems e))
    (fun _ => False).

(** A table: what is in its cells, with their margins and the border above. *)
Variable b_eqb : B -> B -> bool.
Record table_fits {E} (fit : E -> Prop) (empty : E -> Prop) (pm bw : Q) (t : Table.table E F B) : Prop := mkTableFits {
  tf_cols : 0 < Table.t_cols t;
  tf_rows : forall row, In row (Table.t_rows t) -> length row = Table.t_cols t;
  tf_cells : forall row c, In row (Table.t_rows t) -> In c row -> TableEnds.cell_ok fit pm c;
  tf_blank : TableEnds.cell_ok fit pm (Table.t_blank t) /\ Table.c_colspan (Table.t_blank t) = 1 /\ empty (Table.c_elem (Table.t_blank t));
  tf_bh : forall i c, (Table.b_width (Table.t_bh t i c) <= bw)%Q;
  tf_bv : forall i c, (0 <= Table.b_width (Table.t_bv t i c))%Q;
  tf_widths : Forall (fun q => 0 <= q)%Q (Table.t_widths t);
  tf_total : (Table.qsum (Table.t_widths t) <= 1)%Q }.
Definition table_room {k : kit} (r : room k) : room (table_kit b_eqb k) :=
  mkRoom (table_kit b_eqb k)
    (fun H W t => exists Hc pm bw, (Hc + (bw + pm) <= H)%Q /\ table_fits (fits k r Hc W) (none k r) pm bw t)
    (fun _ => False).

Definition sum_room {a b : kit} (ra : room a) (rb : room b) : room (sum_kit a b) :=
  mkRoom (sum_kit a b)
    (fun H W e => match e with inl e => fits a ra H W e | inr e => fits b rb H W e end)
    (fun e => match e with inl e => none a ra e | inr e => none b rb e end).
Definition cell_room {k : kit} (r : room k) : room (cell_kit fuel k) := sum_room r (sum_room image_room (content_room r)).
Fixpoint leaf_room (n : nat) : room (leaf_kit b_eqb round3 text_w space_w fref fuel n) :=
  match n with
  | 0 => text_room
  | S n => sum_room text_room (table_room (cell_room (leaf_room n)))
  end.

(** ** What it gives *)
Definition live (k : kit) (r : room k) : Prop :=
  exists (size : kE k -> nat) (m : kO k -> nat), (forall e, none k r e -> size e = 0) /\
  forall H W, (0 <= W)%Q -> exists inv : kO k -> Prop,
    (forall e, fits k r H W e -> exists o, k_start k e = Ok o /\ inv o /\ m o <= size e) /\
    (forall o x y w h, inv o -> exists o' ht fin ps ls, k_run k o x y w h = Ok (o', ht, fin, ps, ls) /\
       (fin = false -> inv o' /\ m o' <= m o /\ ((H <= h)%Q -> (w <= W)%Q -> m o' < m o))).
(** A saved object goes on as it was. *)
Definition kept (k : kit) : Prop := forall o, k_restore k o (k_save k o) = o.

Lemma text_live : live text_kit text_room.
Proof.
  set (left := fun o : TextLayout.config * TextLayout.dyn =>
    length (TextProofs.all_toks (TextLayout.c_content (fst o))) - TextTerm.len (TextLayout.c_content (fst o)) (TextLayout.d_part (snd o)) (TextLayout.d_word (snd o))).
  exists (fun c => length (TextProofs.all_toks (TextLayout.c_content c))), left. split; [cbn [text_room none]; intros c ->; reflexivity|]. intros H W _.
  exists (fun o => (exists dn, TextOrder.paused (fst o) dn (snd o)) /\ TextOrder.runnable (fst o) (snd o) /\ exists M R, TextTerm.small (fst o) H M R). split.
  - intros c [Hl Hs]. exists (c, TextLayout.fresh c). split; [reflexivity|]. split; [|unfold left; cbn [fst]; lia]. cbn [fst snd].
    split; [exists []; apply TextOrder.paused_fresh|]. split; [|exact Hs]. destruct Hl as [Hl|Hl]; [left; left; exact Hl|]. right. split; [reflexivity|exact Hl].
  - intros [c d] x y w h ((dn & Hp) & Hr & M & R & Hs). cbn [fst snd] in *. cbn [Whole.text_kit k_run].
    assert (unfinished d = d) as -> by (destruct Hp as (Hf & _); destruct d; cbn in Hf; subst; reflexivity).
    destruct (TextOrder.run_total round3 text_w space_w fref c d w h Hr) as (d' & E & Hset). rewrite E. cbn [bind].
    do 5 eexists. split; [reflexivity|]. intros Hf.
    destruct (TextTerm.run_forward round3 text_w space_w fref c dn d w h d' M R Hp E) as [K|(K1 & K2 & K3)]; [congruence|].
    cbn [fst snd]. split; [split; [exact K1|split; [left; exact Hset|exists M, R; exact Hs]]|]. unfold left. cbn [fst snd].
    pose proof (TextTerm.L_all c (TextLayout.d_part d') (TextLayout.d_word d')). split; [lia|]. intros Hh _.
    assert (K4 : TextTerm.small c h M R) by (destruct Hs as [(A1 & A2 & A3) A4]; split; [repeat split; lra|exact A4]).
    specialize (K3 K4). lia.
Qed.
Lemma text_kept : kept text_kit.
Proof. intros [c d]. cbn. destruct d. reflexivity. Qed.

Lemma image_live : live (@image_kit F B) image_room.
Proof.
  exists (fun _ => 0), (fun _ => 0). split; [reflexivity|]. intros H W HW. exists (fits _ image_room H W). split.
  - intros e He. exists e. split; [reflexivity|]. split; [exact He|lia].
  - intros [iw ih] x y w h He. pose proof He as (H1 & H2 & H3). cbn [fst snd] in *. cbn [image_kit k_run].
    destruct (Qeq_bool iw 0) eqn:Ez; [apply Qeq_bool_eq in Ez; lra|].
    destruct (Table.qlt (w * ih / iw) h) eqn:El.
    + do 5 eexists. split; [reflexivity|]. discriminate.
    + do 5 eexists. split; [reflexivity|]. intros _. split; [exact He|]. split; [lia|]. intros Hh Hw. exfalso.
      assert (K : (w * ih / iw <= W * ih / iw)%Q).
      { unfold Qdiv. apply Qmult_le_compat_r; [|apply Qlt_le_weak, Qinv_lt_0_compat, H1]. apply Qmult_le_compat_r; assumption. }
      unfold Table.qlt in El. apply negb_false_iff, Qle_bool_iff in El. lra.
Qed.
Lemma image_kept : kept (@image_kit F B).
Proof. intros o. reflexivity. Qed.

Lemma sum_live (a b : kit) ra rb : live a ra -> live b rb -> live (sum_kit a b) (sum_room ra rb).
Proof.
  intros (sa & ma & A2 & La) (sb & mb & B2 & Lb).
  exists (fun o => match o with inl o => sa o | inr o => sb o end), (fun o => match o with inl o => ma o | inr o => mb o end). split.
  { intros [e|e] He; cbn [sum_room none] in He; [exact (A2 e He)|exact (B2 e He)]. }
  intros H W HW. destruct (La H W HW) as (ia & A1 & A3). destruct (Lb H W HW) as (ib & B1 & B3).
  exists (fun o => match o with inl o => ia o | inr o => ib o end). split.
  - intros [e|e] He; cbn [sum_room fits] in He; cbn [sum_kit k_start]; [destruct (A1 e He) as (o & -> & K)|destruct (B1 e He) as (o & -> & K)]; cbn [bind]; eexists; (split; [reflexivity|exact K]).
  - intros [o|o] x y w h Hi; cbn [sum_kit k_run].
    + destruct (A3 o x y w h Hi) as (o' & ht & fin & ps & ls & -> & K). cbn [bind]. do 5 eexists. split; [reflexivity|exact K].
    + destruct (B3 o x y w h Hi) as (o' & ht & fin & ps & ls & -> & K). cbn [bind]. do 5 eexists. split; [reflexivity|exact K].
Qed.
Lemma sum_kept (a b : kit) : kept a -> kept b -> kept (sum_kit a b).
Proof. intros Ha Hb [o|o]; cbn; [now rewrite Ha|now rewrite Hb]. Qed.

Lemma content_live (k : kit) r : live k r -> kept k -> live (content_kit fuel k) (content_room r).
Proof.
  intros (size & m & _ & Lk) Kk. exists (fun e => ContentEnds.wt size m (ContentFlow.flat (bx_elems e))), (ContentEnds.box_left (k_restore k) size m).
  split; [intros e []|]. intros H W HW. destruct (Lk H W HW) as (inv & A1 & A3). exists (ContentEnds.box_inv (k_restore k) (fits k r H W) inv size m fuel). split.
  - intros [l cols gap] [Hc Hb]. cbn [bx_cols bx_elems bx_gap] in *. subst cols. eexists. split; [reflexivity|]. cbn [bx_cols bx_elems bx_gap].
    destruct (ContentEnds.fresh_live (k_restore k) (fits k r H W) inv size m fuel l gap Hb) as [K1 K2]. split; [exact K1|]. rewrite K2. lia.
  - intros c x y w h Hi. cbn [content_kit k_run].
    assert (content_again c = c) as -> by (destruct Hi as [Hf _]; destruct c; cbn in Hf; subst; reflexivity).
    destruct (ContentEnds.run_live (k_start k) (k_run k) (k_save k) (k_restore k) (fits k r H W) inv size m H W A1 A3 Kk fuel c x y w h Hi) as (c' & o & -> & K).
    do 5 eexists. split; [reflexivity|exact K].
Qed.
Lemma content_kept (k : kit) : kept (content_kit fuel k).
Proof.
  intros c. cbn [content_kit k_restore k_save]. unfold Content.get_state, Content.set_state. destruct c as [el co ga [f|] fi he tr]; cbn; [|reflexivity].
  unfold Content.with_section. destruct f. reflexivity.
Qed.

Lemma table_live (k : kit) r : live k r -> kept k -> live (table_kit b_eqb k) (table_room r).
Proof.
  intros (size & m & N & Lk) Kk. set (m' := fun p : kO k * option (kS k) => m (fst p)).
  exists (fun t => S (TableEnds.rows_size size (Table.t_rows t))), (fun o => TableEnds.state_size size m' (fst o) (snd o)).
  split; [intros e []|]. intros H W HW.
  set (inv' := fun inv (p : kO k * option (kS k)) => inv (fst p) /\ (snd p = None \/ snd p = Some (k_save k (fst p)))).
  exists (fun o => exists Hc pm bw inv, (Hc + (bw + pm) <= H)%Q /\ table_fits (fits k r Hc W) (none k r) pm bw (fst o) /\
    (forall e, fits k r Hc W e -> exists o, k_start k e = Ok o /\ inv o /\ m o <= size e) /\
    (forall o x y w h, inv o -> exists o' ht fin ps ls, k_run k o x y w h = Ok (o', ht, fin, ps, ls) /\
       (fin = false -> inv o' /\ m o' <= m o /\ ((Hc <= h)%Q -> (w <= W)%Q -> m o' < m o))) /\
    TableEnds.state_ok (inv' inv) pm (fst o) (snd o)). split.
  - intros t (Hc & pm & bw & Hh & Ht). eexists. split; [reflexivity|]. destruct (Lk Hc W HW) as (inv & A1 & A3).
    destruct (TableEnds.fresh_ends (inv' inv) size m' pm t) as [K1 K2]. cbn [fst snd]. split; [|rewrite <- K2; apply Nat.le_refl].
    exists Hc, pm, bw, inv. auto.
  - intros [t s] x y w h (Hc & pm & bw & inv & Hh & Ht & A1 & A3 & Hs). cbn [fst snd] in *. cbn [table_kit k_run].
    assert (table_again s = s) as -> by (destruct Hs as [Hf]; destruct s; cbn in Hf; subst; reflexivity).
    assert (H1 : forall e, fits k r Hc W e -> exists o, cell_start k e = Ok o /\ inv' inv o /\ m' o <= size e).
    { intros e He. destruct (A1 e He) as (o & E & K1 & K2). unfold cell_start. rewrite E. cbn [bind]. eexists. split; [reflexivity|].
      split; [split; [exact K1|left; reflexivity]|exact K2]. }
    assert (H2 : forall o x y w h, inv' inv o -> exists o' ht fin ps, cell_run k o x y w h = Ok (o', ht, fin, ps) /\
       (fin = false -> inv' inv o' /\ m' o' <= m' o /\ ((Hc <= h)%Q -> (w <= W)%Q -> m' o' < m' o))).
    { intros [o sv] x1 y1 w1 h1 [Hi Hsv]. cbn [fst snd] in Hi, Hsv. unfold cell_run. cbn [fst snd].
      assert (match sv with Some s => k_restore k o s | None => o end = o) as -> by (destruct Hsv as [->| ->]; [reflexivity|apply Kk]).
      destruct (A3 o x1 y1 w1 h1 Hi) as (o' & ht & fin & ps & ls & -> & K). cbn [bind]. do 4 eexists. split; [reflexivity|].
      intros Hf. destruct (K Hf) as (K1 & K2 & K3). split; [split; [exact K1|right; reflexivity]|]. split; [exact K2|exact K3]. }
    assert (Hok : TableEnds.table_ok (fits k r Hc W) size pm bw t).
    { destruct Ht as [T1 T2 T3 (T4 & T5 & T6) T7 T8 T9 T10]. constructor; try assumption. repeat split; try apply T4; [exact T5|exact (N _ T6)]. }
    destruct (TableEnds.run_total (cell_start k) (cell_run k) b_eqb (fits k r Hc W) (inv' inv) size m' Hc W pm bw H1 H2 t Hok x y w h s Hs) as (s' & out & E).
    rewrite E. cbn [bind]. do 5 eexists. split; [reflexivity|]. intros Hf. cbn [fst snd].
    destruct (TableEnds.run_ends (cell_start k) (cell_run k) b_eqb (fits k r Hc W) (inv' inv) size m' Hc W pm bw H1 H2 HW t Hok x y w h s s' out Hs E Hf) as (K1 & K2 & K3).
    split; [exists Hc, pm, bw, inv; auto|]. split; [exact K2|]. intros Hh1 Hw1. apply K3. split; [lra|exact Hw1].
Qed.
Lemma table_kept (k : kit) : kept (table_kit b_eqb k).
Proof. intros [t s]. cbn. destruct s. reflexivity. Qed.

Notation leaf_kit := (@leaf_kit F B b_eqb round3 text_w space_w fref fuel).
Lemma cell_live (k : kit) r : live k r -> kept k -> live (cell_kit fuel k) (cell_room r).
Proof. intros L K. apply sum_live; [exact L|]. apply sum_live; [apply image_live|]. apply content_live; assumption. Qed.
Lemma cell_kept (k : kit) : kept k -> kept (cell_kit fuel k).
Proof. intros K. apply sum_kept; [exact K|]. apply sum_kept; [apply image_kept|]. apply content_kept. Qed.
Lemma leaf_live_kept n : live (leaf_kit n) (leaf_room n) /\ kept (leaf_kit n).
Proof.
  induction n as [|n [L K]]; [split; [apply text_live|apply text_kept]|]. cbn [Whole.leaf_kit leaf_room]. split.
  - apply sum_live; [apply text_live|]. apply table_live; [apply cell_live; assumption|apply cell_kept, K].
  - apply sum_kept; [apply text_kept|]. apply table_kept.
Qed.
End Fits.
