(** A text accepted by float() is one token, possibly surrounded by blanks. *)
From Coq Require Import Ascii String List NArith ZArith Bool Lia Arith.
From Verif Require Import PyBase PyNum PyStrLemmas PyNumLemmas PyLines UtilsModel.
Import ListNotations.
Local Open Scope list_scope.
Local Open Scope bool_scope.
Local Open Scope nat_scope.

Lemma nospace_app a b : nospace (a ++ b) = nospace a && nospace b.
Proof. unfold nospace. apply forallb_app. Qed.
Lemma strip_us_nospace l : forall b t, strip_us b l = Some t -> nospace t = nospace l.
Proof.
  induction l as [|c l IH]; intros b t H; cbn [strip_us] in H; [inversion H; auto|].
  destruct (aeqb c "_") eqn:E.
  - apply aeqb_eq in E. subst c. destruct b; [|discriminate]. destruct l as [|c' l']; [discriminate|]. destruct (is_digit c'); [|discriminate].
    apply IH in H. rewrite H. reflexivity.
  - destruct (strip_us (is_digit c) l) as [t'|] eqn:S; [|discriminate]. inversion H; subst. cbn [nospace forallb]. f_equal. apply (IH _ _ S).
Qed.
Lemma span_digits_split l : forall a b, span_digits l = (a, b) -> l = a ++ b /\ nospace a = true.
Proof.
  induction l as [|c l IH]; intros a b H; cbn [span_digits] in H; [inversion H; auto|].
  destruct (is_digit c) eqn:D; [|inversion H; auto].
  destruct (span_digits l) as [a' b'] eqn:E. inversion H; subst. destruct (IH _ _ eq_refl) as [-> N]. split; auto.
  cbn [nospace forallb]. rewrite (digit_nospace c D). exact N.
Qed.
Lemma take_sign_nospace l neg d : take_sign l = (neg, d) -> nospace d = true -> nospace l = true.
Proof.
  destruct l as [|c l]; cbn [take_sign]; intros H; [inversion H; auto|].
  destruct (aeqb c "-") eqn:E1; [apply aeqb_eq in E1; subst; inversion H; subst; auto|].
  destruct (aeqb c "+") eqn:E2; [apply aeqb_eq in E2; subst; inversion H; subst; auto|]. inversion H; subst; auto.
Qed.
Lemma parse_exp_nospace l z : parse_exp l = Some z -> nospace l = true.
Proof.
  destruct l as [|c r]; auto. cbn [parse_exp]. destruct (aeqb c "e" || aeqb c "E") eqn:E; [|discriminate].
  destruct (take_sign r) as [neg d] eqn:T. destruct (span_digits d) as [[|x ds] [|y b]] eqn:S; try discriminate. intros _.
  apply span_digits_split in S as [-> N]. rewrite app_nil_r in T. apply take_sign_nospace in T; auto.
  cbn [nospace forallb]. fold (nospace r). rewrite T. apply orb_true_iff in E as [E|E]; apply aeqb_eq in E; subst; reflexivity.
Qed.
Lemma parse_unsigned_nospace neg d x : parse_unsigned neg d = Some x -> nospace d = true /\ d <> [].
Proof.
  unfold parse_unsigned. intros H.
  destruct (seqb (lower d) (lit "inf") || seqb (lower d) (lit "infinity")) eqn:E1.
  - rewrite <- nospace_lower. apply orb_true_iff in E1 as [E|E]; apply seqb_eq in E; rewrite E; split; auto; intros ->; discriminate.
  - destruct (seqb (lower d) (lit "nan")) eqn:E2.
    + rewrite <- nospace_lower. apply seqb_eq in E2. rewrite E2. split; auto. intros ->. discriminate.
    + destruct (span_digits d) as [ip r1] eqn:S1. apply span_digits_split in S1 as [-> N1].
      destruct r1 as [|c r].
      * rewrite app_nil_r in *. destruct ip; [discriminate|]. split; auto. discriminate.
      * destruct (aeqb c ".") eqn:Ec.
        -- apply aeqb_eq in Ec. subst c. destruct (span_digits r) as [fp r2] eqn:S2. apply span_digits_split in S2 as [-> N2].
           destruct (ip ++ fp) eqn:E; [discriminate|]. destruct (parse_exp r2) eqn:P; [|discriminate]. apply parse_exp_nospace in P.
           split; [|destruct ip; discriminate]. rewrite nospace_app. cbn [nospace forallb]. fold (nospace (fp ++ r2)). rewrite nospace_app, N1, N2, P. reflexivity.
        -- rewrite app_nil_r in H. destruct ip as [|y ip]; [discriminate|]. destruct (parse_exp (c :: r)) eqn:P; [|discriminate]. apply parse_exp_nospace in P.
           split; [|discriminate]. rewrite nospace_app, N1, P. reflexivity.
Qed.
Theorem parse_dec_token s d : parse_dec s = Some d -> split_ws s = [strip s] /\ parse_dec (strip s) = Some d.
Proof.
  intros H. split; [|unfold parse_dec; rewrite strip_idem; exact H]. rewrite <- split_ws_strip. unfold parse_dec in H.
  destruct (strip_us false (strip s)) as [t|] eqn:S; [|discriminate]. destruct (take_sign t) as [neg u] eqn:T.
  apply parse_unsigned_nospace in H as [N Ne]. apply split_ws_word.
  - intros E. rewrite E in S. cbn in S. inversion S; subst. cbn in T. inversion T; subst. congruence.
  - rewrite <- (strip_us_nospace _ _ _ S). eapply take_sign_nospace; eauto.
Qed.
Theorem number_token s : is_number s = true -> split_ws s = [strip s] /\ is_number (strip s) = true.
Proof.
  unfold is_number, parse_float. destruct (parse_dec s) as [d|] eqn:P; [|discriminate]. intros _.
  apply parse_dec_token in P as [H1 H2]. rewrite H2. auto.
Qed.
Lemma number_strip s : is_number (strip s) = is_number s.
Proof. unfold is_number, parse_float, parse_dec. rewrite strip_idem. reflexivity. Qed.

(** splitting at a separator that is a blank and then at blanks is splitting at blanks *)
Lemma split_ws_split_on d l : is_space d = true -> split_ws l = flat_map split_ws (split_on d l).
Proof.
  intros S. induction l as [|c l IH]; [reflexivity|]. cbn [split_on]. destruct (aeqb c d) eqn:E.
  - apply aeqb_eq in E. subst c. rewrite split_ws_cons_space by auto. exact IH.
  - destruct (split_on d l) as [|w ws] eqn:SO; [exfalso; eapply split_on_ne; eauto|]. cbn [flat_map] in *.
    assert (l = join [d] (w :: ws)) as El by (rewrite <- SO; symmetry; apply split_on_join). subst l.
    destruct ws as [|w2 ws].
    + cbn [join flat_map] in *. rewrite app_nil_r in *. reflexivity.
    + rewrite join_cons2. cbn [app]. change (c :: w ++ d :: join [d] (w2 :: ws)) with ((c :: w) ++ d :: join [d] (w2 :: ws)).
      assert (split_ws (join [d] (w2 :: ws)) = flat_map split_ws (w2 :: ws)) as EJ.
      { rewrite join_cons2 in IH. cbn [app] in IH. rewrite split_ws_app_space in IH by auto. apply app_inv_head in IH. exact IH. }
      rewrite split_ws_app_space by auto. rewrite EJ. reflexivity.
Qed.
(** is_numbers: every piece between single blanks is a number *)
Lemma is_numbers_tokens s : is_numbers s = true -> forallb is_number (split_ws s) = true /\ split_ws s <> [].
Proof.
  unfold is_numbers. intros H. rewrite (split_ws_split_on sp s eq_refl).
  assert (split_on sp s <> []) as NE by apply split_on_ne.
  revert H NE. generalize (split_on sp s). intros l. induction l as [|w l IH]; [congruence|]. intros H _.
  cbn [forallb flat_map] in *. apply andb_true_iff in H as [H1 H2]. apply number_token in H1 as [E N]. rewrite E. cbn [app forallb]. split; [|discriminate].
  rewrite N. destruct l as [|w2 l]; [reflexivity|]. apply IH; [auto|discriminate].
Qed.
