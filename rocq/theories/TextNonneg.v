(** The height that a text reports is not negative; for C91. *)
From Coq Require Import QArith Lqa List.
From Verif Require Import Py TextLayout TextProofs TextOrder TextFit.
From Verif Require TextApart.
Import ListNotations.

Section Nonneg.
Variable round3 : Q -> Q.
Variable text_w : fkey -> str -> Q.
Variable space_w : fkey -> Q.
Variable fref : fkey -> str.
Variable c : config.
Hypothesis lh : (0 <= c_lh c)%Q.

Lemma accumulated_top l l1 : add_accumulated text_w space_w l = Ok l1 -> l_top l1 = l_top l.
Proof. unfold add_accumulated, bind. intros H. repeat match type of H with context [match ?e with _ => _ end] => destruct e; try discriminate end; injection H as <-; reflexivity. Qed.
Lemma next_top l w l1 : next_add text_w space_w l w = Ok l1 -> l_top l1 = l_top l.
Proof. unfold next_add, bind. intros H. repeat match type of H with context [match ?e with _ => _ end] => destruct e; try discriminate end; injection H as <-; reflexivity. Qed.
Lemma word_top a l w st l1 : add_word text_w space_w a l w = Ok (st, l1) -> l_top l1 = l_top l /\ match st with Finished nl => (0 <= l_top nl)%Q | _ => True end.
Proof.
  unfold add_word. destruct (negb (l_started l)).
  - destruct (isspace w); [destruct (l_first l)|].
    + destruct (add_accumulated _ _ _) as [l2|] eqn:E; [|discriminate]. cbn [bind]. intros H. injection H as <- <-. rewrite (accumulated_top _ _ E). auto.
    + intros H. injection H as <- <-. auto.
    + destruct (next_add _ _ _ _) as [l2|] eqn:E; [|discriminate]. cbn [bind]. intros H. injection H as <- <-. rewrite (next_top _ _ _ E). auto.
  - destruct (isspace w); [destruct (l_lws l)|].
    + intros H. injection H as <- <-. auto.
    + destruct (add_accumulated _ _ _) as [l2|] eqn:E; [|discriminate]. cbn [bind]. intros H. injection H as <- <-. rewrite (accumulated_top _ _ E). auto.
    + destruct (next_add _ _ _ _) as [l2|] eqn:E; [|discriminate]. cbn [bind]. apply next_top in E. cbn [with_flags l_top] in E. destruct (l_next l2) as [nx|]; [|discriminate].
      destruct (qgtb _ _); [intros H; injection H as <- <-; auto|]. destruct (rev (l_parts l2)) as [|lst init]; [discriminate|]. cbv zeta. intros H. injection H as <- <-. split.
      * rewrite <- E. destruct (rev (lp_words lst)) as [|x r]; [reflexivity|]. destruct (is_sp x); reflexivity.
      * apply TextApart.line_bottom_ge.
Qed.

Definition up (d : dyn) : Prop := (0 <= d_h d)%Q.
Lemma flush_top cur b : l_top (flush cur b) = l_top cur.
Proof. unfold flush. destruct b; [destruct (l_next cur)|]; reflexivity. Qed.
Lemma up_accept d cur b k e f g : up d -> (0 <= l_top cur)%Q -> up (accept c d (flush cur b) k e f g).
Proof.
  intros H T. unfold up in *. cbn [accept d_h]. assert (L : (0 <= line_height (flush cur b))%Q).
  { unfold line_height. rewrite flush_top. destruct (TextApart.max_size_ge (l_parts (flush cur b))) as [M _], (TextApart.top_rise_ge (l_parts (flush cur b))) as [R _]. lra. }
  pose proof (Qmult_le_0_compat _ _ L lh). unfold line_cost. destruct (d_added d); lra.
Qed.
Lemma up_ind : run_ind round3 text_w space_w fref c (fun _ d cur => up d /\ (0 <= l_top cur)%Q) (fun _ _ d cur => up d /\ (0 <= l_top cur)%Q) up.
Proof.
  constructor.
  - intros; assumption.
  - intros p d cur go d1 _ [H T] El. apply add_current_line_spec in El. destruct go.
    + destruct El as (e & x & q & f & k & Hn & Es & ->). split; [apply up_accept; assumption|exact lh].
    + destruct El as [_ ->]. exact H.
  - intros p d cur t y ids d1 cur1 _ [H T] Eb. destruct (begin_part_spec _ _ _ _ _ _ _ _ Eb) as (Hs & _ & _ & _ & Ht & _). destruct Hs. unfold up. rewrite sp_h, Ht. auto.
  - intros p i d cur t y ids w0 st cur1 _ _ [H T] Ew. destruct (word_top _ _ _ _ _ Ew) as [W1 W2]. destruct st; try (split; [exact H|rewrite W1; exact T]).
    intros go d1 mx El _. apply add_current_line_spec in El. destruct go.
    + destruct El as (e & x & q & f & k & Hn & Es & ->). split; [apply up_accept; [exact H|rewrite W1; exact T]|exact W2].
    + destruct El as [_ ->]. exact H.
  - intros p i d cur t y ids _ _ H. exact H.
  - intros p d cur go d1 _ [H T] El. apply add_current_line_spec in El. destruct go.
    + destruct El as (e & x & q & f & k & Hn & Es & ->). exact (up_accept d cur true _ _ _ _ H T).
    + destruct El as [_ ->]. exact H.
Qed.
Lemma run_up d w h d' : run round3 text_w space_w fref c d w h = Ok d' -> (0 <= d_h d')%Q.
Proof. intros E. refine (run_induction _ _ _ _ _ _ _ _ up_ind d w h d' _ E). split; [unfold up; cbn; lra|cbn; exact lh]. Qed.
End Nonneg.
