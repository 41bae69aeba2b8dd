(** Fixed-point printing of a float read from a decimal with few digits: the same
    decimal comes out.  Used by C94. *)
From Coq Require Import Ascii String List NArith ZArith Bool Lia Arith.
From Verif Require Import PyBase PyStrLemmas PyNum PyNumLemmas PyFmtLemmas.
Import ListNotations.
Local Open Scope list_scope.
Local Open Scope nat_scope.

(** m * 10^e and m' * 10^e' are the same number *)
Definition same_decimal (m : N) (e : Z) (m' : N) (e' : Z) : Prop :=
  exists k, (m' = m * 10 ^ N.of_nat k)%N /\ (e = e' + Z.of_nat k)%Z \/ (m = m' * 10 ^ N.of_nat k)%N /\ (e' = e + Z.of_nat k)%Z.
(** When [t] is a decimal number +/- n * 10^-p (in any notation float() takes) with n < 2^52,
    that is, with at most [p] decimals and at most fifteen digits in all, [t'] is that number
    written with [p] decimals, with the same sign. *)
Definition keeps_to (p : nat) (t t' : str) : Prop := forall neg m e n,
  parse_dec t = Some (DFin neg m e) -> same_decimal m e n (- Z.of_nat p) -> (n < 2 ^ 52)%N ->
  parse_dec t' = Some (DFin neg n (- Z.of_nat p)).
Lemma same_decimal_float neg m e m' e' : same_decimal m e m' e' -> float_of_dec (DFin neg m e) = float_of_dec (DFin neg m' e').
Proof. intros [k [[-> ->]|[-> ->]]]; [symmetry|]; apply float_of_dec_shift. Qed.

Lemma fits_q p neg n : p <= 300 -> (n < 2 ^ 52)%N -> exists m e,
  float_of_dec (DFin neg n (- Z.of_nat p)) = FFin neg m e /\ fixed_q p m e = n.
Proof.
  intros Hp Hn. assert (finite (float_of_dec (DFin neg n (- Z.of_nat p))) = true) as Hfin by (apply (fits_finite p); auto; exists neg, n; auto).
  assert (float_of_dec (DFin neg n (- Z.of_nat p)) = round64 neg n (10 ^ N.of_nat p)) as FD.
  { cbn [float_of_dec]. rewrite pow10_neg by lia. rewrite N.mul_1_r.
    replace (- - Z.of_nat p)%Z with (Z.of_nat p) by lia. rewrite pow10_nat. reflexivity. }
  set (T := (10 ^ N.of_nat p)%N) in *.
  assert (0 < T)%N as HT by (unfold T; pose proof (N.pow_nonzero 10 (N.of_nat p)); lia).
  assert (T < 2 ^ 1000)%N as HT2.
  { apply N.le_lt_trans with (10 ^ 300)%N; [apply N.pow_le_mono_r; lia|vm_compute; reflexivity]. }
  assert (forall m e, round64 neg n T = FFin neg m e -> (-1074 <= e)%Z /\ (2 * dist n T (val m e) < K1074)%Z) as A.
  { intros m e R. destruct (N.eq_dec n 0) as [->|Hn0].
    - inversion R; subst. split; [lia|]. unfold dist, val. cbn [Z.of_N].
      rewrite !Z.mul_0_l, Z.mul_0_r. pose proof K1074_pos. cbn. lia.
    - rewrite round64_eq in R by auto.
      assert (-1074 <= rexp n T)%Z as He by (unfold rexp; lia).
      pose proof (rquo_error n T ltac:(lia) HT) as RErr.
      assert (2 * dist n T (val (rquo n T) (rexp n T)) < K1074)%Z as B.
      { eapply Z.le_lt_trans; [exact RErr|].
        destruct (Z.eq_dec (rexp n T) (-1074)) as [E|E].
        - rewrite E. change (val 1 (-1074)) with 1%Z.
          assert (Z.of_N (2 ^ 1000) < K1074)%Z by (vm_compute; reflexivity). lia.
        - pose proof (flog2_scaled n T ltac:(lia) HT ltac:(lia)) as F.
          pose proof K1074_pos. set (w := (Z.of_N T * val 1 (rexp n T))%Z) in *.
          assert (2 ^ 52 * w <= Z.of_N n * K1074)%Z by (unfold w; lia).
          assert (Z.of_N n * K1074 < 2 ^ 52 * K1074)%Z by (apply Z.mul_lt_mono_pos_r; lia). lia. }
      pose proof (norm2_val (rquo n T) (rexp n T) He) as NV.
      pose proof (norm2_spec (rquo n T) (rexp n T)) as NS.
      destruct (norm2 (rquo n T) (rexp n T)) as [m' e']. destruct NV as [V1 [V2 V3]].
      destruct (N.eqb_spec m' 0) as [E|E].
      + inversion R; subst m e. split; [lia|].
        assert (rquo n T = 0%N) as Q by (destruct (N.eq_dec (rquo n T) 0); [auto|exfalso; apply V1; auto]).
        rewrite Q in B. exact B.
      + destruct (2 ^ 1024 <=? _)%N; [discriminate|]. inversion R; subst m' e'.
        assert (rquo n T <> 0%N) as Q0 by (intros K; apply E, V3, K).
        destruct (NS Q0) as [_ [Le _]]. split; [lia|]. rewrite V2 by auto. exact B. }
  assert (exists m e, round64 neg n T = FFin neg m e) as [m [e R]].
  { rewrite FD in Hfin. revert Hfin. unfold round64. destruct (n =? 0)%N; eauto.
    destruct (norm2 _ _). destruct (_ =? 0)%N; eauto. destruct (_ <=? _)%N; eauto. discriminate. }
  destruct (A m e R) as [He D].
  exists m, e. rewrite FD. split; [exact R|].
  apply (fixed_q_of_dist p m e n He); fold T; [lia|].
  intros K. lia.
Qed.

Lemma fixed_text_digits p neg n : p <= 300 -> (n < 2 ^ 52)%N ->
  parse_dec (fixed_text p (float_of_dec (DFin neg n (- Z.of_nat p)))) = Some (DFin neg n (- Z.of_nat p)).
Proof.
  intros Hp Hn. destruct (fits_q p neg n Hp Hn) as (m & e & -> & Q). rewrite fixed_text_fin.
  destruct (fixed_ratio_props p neg (float_num m e) (float_den e)) as [H _]. rewrite H. fold (fixed_q p m e). rewrite Q. reflexivity.
Qed.

Lemma keeps_fixed p t x : p <= 300 -> parse_float t = Some x -> keeps_to p t (fixed_text p x).
Proof.
  intros Hp X neg m e n D SD Hn. unfold parse_float in X. rewrite D in X. cbn [option_map] in X.
  assert (x = float_of_dec (DFin neg m e)) as -> by congruence. rewrite (same_decimal_float neg _ _ _ _ SD). apply fixed_text_digits; auto.
Qed.
