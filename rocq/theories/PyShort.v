(** str() of a float read from a decimal of at most fifteen digits gives the same decimal.
    Values are compared in Q. *)
From Coq Require Import Ascii String List NArith ZArith QArith Qabs Qpower Bool Lia Arith Lqa.
From Verif Require Import PyBase PyStrLemmas PyNum PyNumLemmas PyFmtLemmas.
Import ListNotations.
Local Open Scope Q_scope.

Definition qn (n : N) : Q := inject_Z (Z.of_N n).
Lemma qn_mul a b : qn (a * b) == qn a * qn b.
Proof. unfold qn. rewrite N2Z.inj_mul, inject_Z_mult. reflexivity. Qed.
Lemma qn_add a b : qn (a + b) == qn a + qn b.
Proof. unfold qn. rewrite N2Z.inj_add, inject_Z_plus. reflexivity. Qed.
Lemma qn_le a b : (a <= b)%N <-> qn a <= qn b.
Proof. unfold qn. rewrite <- Zle_Qle. lia. Qed.
Lemma qn_lt a b : (a < b)%N <-> qn a < qn b.
Proof. unfold qn. rewrite <- Zlt_Qlt. lia. Qed.
Lemma qn_pos a : (0 < a)%N -> 0 < qn a.
Proof. intros H. apply (qn_lt 0 a) in H. exact H. Qed.
Lemma qn_nonneg a : 0 <= qn a.
Proof. apply (qn_le 0 a). lia. Qed.
Lemma qn_pow b n : qn (b ^ n) == qn b ^ Z.of_N n.
Proof. unfold qn. rewrite N2Z.inj_pow, Zpower_Qpower by lia. reflexivity. Qed.

(** powers of ten and of two with any exponent *)
Definition T (e : Z) : Q := 10 ^ e.
Definition B (e : Z) : Q := 2 ^ e.
Lemma T_pos e : 0 < T e. Proof. apply Qpower_0_lt. reflexivity. Qed.
Lemma B_pos e : 0 < B e. Proof. apply Qpower_0_lt. reflexivity. Qed.
Lemma T_add a b : T (a + b) == T a * T b. Proof. apply Qpower_plus. discriminate. Qed.
Lemma B_add a b : B (a + b) == B a * B b. Proof. apply Qpower_plus. discriminate. Qed.
Lemma T_0 : T 0 == 1. Proof. reflexivity. Qed.
Lemma B_0 : B 0 == 1. Proof. reflexivity. Qed.
Lemma T_inv a : T a * T (- a) == 1. Proof. rewrite <- T_add, Z.add_opp_diag_r. reflexivity. Qed.
Lemma B_inv a : B a * B (- a) == 1. Proof. rewrite <- B_add, Z.add_opp_diag_r. reflexivity. Qed.
Lemma T_ge1 a : (0 <= a)%Z -> 1 <= T a.
Proof. intros H. apply Qpower_1_le; [discriminate|auto]. Qed.
Lemma B_ge1 a : (0 <= a)%Z -> 1 <= B a.
Proof. intros H. apply Qpower_1_le; [discriminate|auto]. Qed.
Lemma T_le a b : (a <= b)%Z -> T a <= T b.
Proof. intros H. replace b with (a + (b - a))%Z by lia. rewrite T_add. pose proof (T_pos a). pose proof (T_ge1 (b - a) ltac:(lia)). nra. Qed.
Lemma B_le a b : (a <= b)%Z -> B a <= B b.
Proof. intros H. replace b with (a + (b - a))%Z by lia. rewrite B_add. pose proof (B_pos a). pose proof (B_ge1 (b - a) ltac:(lia)). nra. Qed.
Lemma T_lt_inv a b : T a < T b -> (a < b)%Z.
Proof. intros H. destruct (Z.lt_ge_cases a b) as [|L]; auto. apply T_le in L. lra. Qed.
Lemma qn_pow10 e : (0 <= e)%Z -> qn (pow10 e) == T e.
Proof. intros H. unfold pow10. rewrite qn_pow, Z2N.id by auto. reflexivity. Qed.
Lemma qn_pow2 e : (0 <= e)%Z -> qn (pow2 e) == B e.
Proof. intros H. unfold pow2. rewrite qn_pow, Z2N.id by auto. reflexivity. Qed.
(** pow10 e / pow10 (-e) = 10^e *)
Lemma ratio10 e : qn (pow10 e) == T e * qn (pow10 (- e)).
Proof.
  destruct (Z.le_gt_cases 0 e) as [H|H].
  - rewrite qn_pow10 by auto. rewrite (pow10_neg (- e)) by lia. change (qn 1) with 1. ring.
  - rewrite (pow10_neg e) by lia. rewrite (qn_pow10 (- e)) by lia. rewrite T_inv. reflexivity.
Qed.
Lemma ratio2 e : qn (pow2 e) == B e * qn (pow2 (- e)).
Proof.
  destruct (Z.le_gt_cases 0 e) as [H|H].
  - rewrite qn_pow2 by auto. rewrite (pow2_neg (- e)) by lia. change (qn 1) with 1. ring.
  - rewrite (pow2_neg e) by lia. rewrite (qn_pow2 (- e)) by lia. rewrite B_inv. reflexivity.
Qed.
(** [a/b] is [v] *)
Definition rat (a b : N) (v : Q) : Prop := (0 < b)%N /\ qn a == v * qn b.
Lemma rat_dec m e : rat (m * pow10 e) (pow10 (- e)) (qn m * T e).
Proof. split; [apply pow10_pos|]. rewrite qn_mul, ratio10. ring. Qed.
Lemma rat_float m e : rat (float_num m e) (float_den e) (qn m * B e).
Proof. unfold float_num, float_den. split; [apply pow2_pos|]. rewrite qn_mul, ratio2. ring. Qed.
Lemma rat_scale10 a b v q : rat a b v -> rat (a * pow10 (- q)) (b * pow10 q) (v * T (- q)).
Proof.
  intros [P E]. split; [pose proof (pow10_pos q); nia|]. rewrite !qn_mul, E. rewrite (ratio10 (- q)), Z.opp_involutive. ring.
Qed.
Lemma rat_scale2 a b v q : rat a b v -> rat (a * pow2 (- q)) (b * pow2 q) (v * B (- q)).
Proof.
  intros [P E]. split; [pose proof (pow2_pos q); nia|]. rewrite !qn_mul, E. rewrite (ratio2 (- q)), Z.opp_involutive. ring.
Qed.
Lemma rat_lge a b v k : rat a b v -> (lge a b k <-> B k <= v).
Proof.
  intros [P E]. unfold lge. rewrite qn_le, !qn_mul, E. rewrite ratio2.
  pose proof (qn_pos b P). pose proof (qn_pos _ (pow2_pos (- k))). set (x := qn b) in *. set (y := qn (pow2 (- k))) in *.
  assert (XY : 0 < x * y) by nra. set (z := x * y) in *. set (t := B k).
  assert (E1 : x * (t * y) == t * z) by (unfold z; ring). assert (E2 : v * x * y == v * z) by (unfold z; ring). rewrite E1, E2. apply Qmult_le_r. exact XY.
Qed.
Lemma rat_div a b v : rat a b v -> Qabs (qn (div_rne a b) - v) <= 1 # 2.
Proof.
  intros [P E]. destruct (div_rne_error a b P) as [E1 E2]. apply qn_le in E1, E2. rewrite ?qn_mul, ?qn_add, ?qn_mul, E in *. change (qn 2) with 2 in *. change (qn 1) with 1 in *.
  pose proof (qn_pos b P) as Hb. set (y := qn b) in *. set (q := qn (div_rne a b)) in *. apply Qabs_Qle_condition.
  split; [destruct (Qlt_le_dec (q - v) (- (1 # 2))) as [L|L]; auto; exfalso; assert ((q - v + (1 # 2)) * y < 0) by nra; nra|].
  destruct (Qlt_le_dec (1 # 2) (q - v)) as [L|L]; auto. exfalso. assert (0 < (q - v - (1 # 2)) * y) by nra. nra.
Qed.
Lemma rat_div_exact a b v n : rat a b v -> Qabs (qn n - v) < 1 # 2 -> div_rne a b = n.
Proof.
  intros R H. pose proof (rat_div a b v R) as D. apply Qabs_Qlt_condition in H. apply Qabs_Qle_condition in D.
  assert (qn (div_rne a b) < qn n + 1 /\ qn n < qn (div_rne a b) + 1) as [H1 H2] by lra.
  change 1 with (qn 1) in H1, H2. rewrite <- qn_add in H1, H2. apply qn_lt in H1, H2. lia.
Qed.

(** ** Rounding to binary64: relative error 2^-53 above 2^-1022 *)
Lemma norm2_value q e : let (m, e') := norm2 q e in qn m * B e' == qn q * B e.
Proof.
  destruct q as [|p]; [cbn; change (qn 0) with 0; ring|]. unfold norm2. revert e. induction p as [p IH|p IH|]; intros e; cbn [norm2_pos]; try reflexivity.
  specialize (IH (e + 1)%Z). destruct (norm2_pos p (e + 1)) as [m e']. rewrite IH, B_add. change (B 1) with 2. change (N.pos p~0) with (2 * N.pos p)%N. rewrite qn_mul. change (qn 2) with 2. ring.
Qed.
Lemma round_close neg a b v m e : rat a b v -> 0 < v -> round64 neg a b = FFin neg m e -> (m <> 0)%N ->
  Qabs (qn m * B e - v) <= B (-53) * v \/ (v < B (-1022) /\ Qabs (qn m * B e - v) <= B (-1075)).
Proof.
  intros R V E M. pose proof R as [Pb _].
  assert (A0 : (a <> 0)%N) by (intros ->; destruct R as [_ R]; pose proof (qn_pos b Pb); change (qn 0) with 0 in R; nra).
  rewrite round64_eq in E by auto. pose proof (norm2_value (rquo a b) (rexp a b)) as NV.
  destruct (norm2 (rquo a b) (rexp a b)) as [m0 e0]. destruct (N.eqb_spec m0 0); [injection E as <- _; congruence|].
  destruct (_ <=? _)%N; [discriminate E|]. injection E as -> ->. rewrite NV.
  pose proof (rat_div _ _ _ (rat_scale2 a b v (rexp a b) R)) as D. fold (rquo a b) in D.
  set (k := rexp a b) in *. set (q := qn (rquo a b)) in *.
  assert (DD : Qabs (q * B k - v) <= B (k - 1)).
  { replace (k - 1)%Z with (k + -1)%Z by lia. rewrite B_add. change (B (-1)) with (1 # 2). pose proof (B_pos k) as PB. pose proof (B_inv k) as BI.
    apply Qabs_Qle_condition in D. apply Qabs_Qle_condition. set (x := B k) in *. set (y := B (- k)) in *. 
    assert (v == v * y * x) as EV by (rewrite <- Qmult_assoc, (Qmult_comm y x), BI; ring). rewrite EV. set (w := v * y) in *. nra. }
  destruct (flog2_spec a b ltac:(lia) Pb) as [F1 F2]. apply (rat_lge a b v _ R) in F1. rewrite (rat_lge a b v _ R) in F2.
  unfold k, rexp in *. destruct (Z.max_spec (flog2 a b - 52) (-1074)) as [[L E]|[L E]]; rewrite E in *.
  - right. split; [|exact DD]. apply Qnot_le_lt. intros X. apply F2. eapply Qle_trans; [|exact X]. apply B_le. lia.
  - left. eapply Qle_trans; [exact DD|]. replace (flog2 a b - 52 - 1)%Z with (-53 + flog2 a b)%Z by lia. rewrite B_add. pose proof (B_pos (-53)). nra.
Qed.

(** ** The decimal point *)
Lemma digits_fuel_bounds f n : (0 < n)%N -> (n < 2 ^ N.of_nat f)%N -> let d := digits_fuel (S f) n in
  (10 ^ N.of_nat (length d - 1) <= n /\ n < 10 ^ N.of_nat (length d))%N.
Proof.
  revert n. induction f as [|f IH]; intros n P L; [cbn in L; lia|].
  change (digits_fuel (S (S f)) n) with (if (n <? 10)%N then [digit_char n] else digits_fuel (S f) (n / 10) ++ [digit_char (n mod 10)]). cbv zeta.
  destruct (N.ltb_spec n 10) as [S0|S0]; [cbn; lia|].
  pose proof (N.div_mod n 10 ltac:(lia)) as E. pose proof (N.mod_lt n 10 ltac:(lia)) as M.
  assert (Q1 : (0 < n / 10)%N) by (apply N.div_str_pos; lia).
  assert (Q2 : (n / 10 < 2 ^ N.of_nat f)%N).
  { apply N.div_lt_upper_bound; [lia|]. eapply N.lt_le_trans; [exact L|]. rewrite Nat2N.inj_succ, N.pow_succ_r'. nia. }
  destruct (IH _ Q1 Q2) as [H1 H2]. rewrite app_length. cbn [length].
  set (d := digits_fuel (S f) (n / 10)) in *. assert (length d <> 0)%nat by (destruct d eqn:X; [exfalso; eapply digits_fuel_ne; exact X|discriminate]).
  replace (length d + 1 - 1)%nat with (S (length d - 1)) by lia. replace (length d + 1)%nat with (S (length d)) by lia.
  rewrite !Nat2N.inj_succ, !N.pow_succ_r'. split; nia.
Qed.
Lemma ndigits_bounds n : (0 < n)%N -> T (ndigits n - 1) <= qn n /\ qn n < T (ndigits n).
Proof.
  intros P. unfold ndigits. destruct (digits_fuel_bounds (N.to_nat (N.size n)) n P) as [H1 H2].
  { rewrite N2Nat.id. pose proof (N.size_gt n). lia. }
  fold (digits_of n) in H1, H2. apply qn_le in H1. apply qn_lt in H2. rewrite qn_pow in H1, H2. change (qn 10) with 10 in *.
  assert (length (digits_of n) <> 0)%nat by (pose proof (digits_of_ne n); destruct (digits_of n); [congruence|discriminate]).
  rewrite !nat_N_Z in H1, H2. rewrite Nat2Z.inj_sub in H1 by lia. split; auto.
Qed.
Lemma decpt_bounds a b v : (0 < a)%N -> rat a b v -> T (decpt a b - 1) <= v /\ v < T (decpt a b).
Proof.
  intros P R. pose proof R as [Pb E]. destruct (ndigits_bounds a P) as [A1 A2]. destruct (ndigits_bounds b Pb) as [B1 B2].
  unfold decpt. set (k := (ndigits a - ndigits b)%Z) in *.
  assert (C : (b * pow10 k <= a * pow10 (- k))%N <-> T k <= v).
  { rewrite qn_le, !qn_mul, E, ratio10. pose proof (qn_pos b Pb). pose proof (qn_pos _ (pow10_pos (- k))). set (x := qn b) in *. set (y := qn (pow10 (- k))) in *.
    assert (XY : 0 < x * y) by nra. set (z := x * y) in *. set (t := T k).
    assert (E1 : x * (t * y) == t * z) by (unfold z; ring). assert (E2 : v * x * y == v * z) by (unfold z; ring). rewrite E1, E2. apply Qmult_le_r. exact XY. }
  pose proof (qn_pos b Pb) as PB. pose proof (T_pos (k - 1)) as P1. pose proof (T_pos k) as P2.
  assert (L1 : T (k - 1) <= v).
  { apply Qnot_lt_le. intros X. assert (v * qn b < T (k - 1) * T (ndigits b)); [|rewrite <- T_add in H; replace (k - 1 + ndigits b)%Z with (ndigits a - 1)%Z in H by lia; lra].
    eapply Qlt_le_trans; [apply Qmult_lt_r; [exact PB|exact X]|]. apply Qlt_le_weak, Qmult_lt_l; auto. }
  assert (L2 : v < T (k + 1)).
  { apply Qnot_le_lt. intros X. assert (T (k + 1) * T (ndigits b - 1) <= v * qn b); [|rewrite <- T_add in H; replace (k + 1 + (ndigits b - 1))%Z with (ndigits a) in H by lia; lra].
    eapply Qle_trans; [apply Qmult_le_compat_r; [exact X|apply Qlt_le_weak, T_pos]|]. apply Qmult_le_l; [|exact B1]. eapply Qlt_le_trans; [|exact X]. apply T_pos. }
  destruct (N.leb_spec (b * pow10 k) (a * pow10 (- k))) as [H|H].
  - apply C in H. replace (k + 1 - 1)%Z with k by lia. auto.
  - split; auto. apply Qnot_le_lt. intros X. apply C in X. lia.
Qed.

(** ** Two multiples of a power of ten that are close are equal *)
Lemma close_multiples t x y : 0 < t -> Qabs (qn x * t - qn y * t) < t -> x = y.
Proof.
  intros P H. apply Qabs_Qlt_condition in H as [H1 H2].
  assert (qn x < qn y + 1 /\ qn y < qn x + 1) as [A1 A2].
  { split; apply Qnot_le_lt; intros X; [assert ((qn y + 1) * t <= qn x * t)|assert ((qn x + 1) * t <= qn y * t)]; try (apply Qmult_le_compat_r; [exact X|lra]); lra. }
  change 1 with (qn 1) in A1, A2. rewrite <- qn_add in A1, A2. apply qn_lt in A1, A2. lia.
Qed.

(** ** The decimal found *)
Lemma B53 : B (-53) == 1 # 9007199254740992. Proof. reflexivity. Qed.
Lemma float_pos neg m e M E : (0 < m)%N -> (-300 <= e)%Z -> float_of_dec (DFin neg m e) = FFin neg M E -> M <> 0%N.
Proof.
  intros P L H ->. cbn [float_of_dec] in H. destruct (rat_dec m e) as [Pb R]. set (a := (m * pow10 e)%N) in *. set (b := pow10 (- e)) in *.
  assert (A0 : (a <> 0)%N) by (unfold a; pose proof (pow10_pos e); nia).
  rewrite round64_eq in H by auto. pose proof (norm2_value (rquo a b) (rexp a b)) as NV.
  destruct (norm2 (rquo a b) (rexp a b)) as [m0 e0].
  assert (M0 : m0 = 0%N). { destruct (N.eqb_spec m0 0) as [->|N0]; [reflexivity|]. destruct (_ <=? _)%N; [discriminate H|]. injection H as H _. congruence. }
  subst m0. pose proof (rat_div _ _ _ (rat_scale2 a b _ (rexp a b) (conj Pb R))) as D. fold (rquo a b) in D.
  assert (Z0 : qn (rquo a b) == 0). { change (qn 0) with 0 in NV. pose proof (B_pos (rexp a b)). destruct (Qeq_dec (qn (rquo a b)) 0) as [|NE]; auto. exfalso. apply NE. nra. }
  rewrite Z0 in D. apply Qabs_Qle_condition in D as [D _].
  destruct (flog2_spec a b ltac:(lia) Pb) as [F1 _]. apply (rat_lge a b _ _ (conj Pb R)) in F1.
  unfold rexp in D. set (v := qn m * T e) in *.
  assert (V : B (-1022) <= v).
  { unfold v. apply Qle_trans with (1 * T (-300)). { vm_compute. discriminate. }
    apply Qmult_le_compat_nonneg; (split; [try lra; apply Qlt_le_weak, T_pos|]); [change 1 with (qn 1); apply qn_le; lia|apply T_le; lia]. }
  assert (X : B (Z.max (flog2 a b - 52) (-1074)) <= v).
  { destruct (Z.max_spec (flog2 a b - 52) (-1074)) as [[_ ->]|[_ ->]]; [eapply Qle_trans; [|exact V]|eapply Qle_trans; [|exact F1]]; apply B_le; lia. }
  set (k := Z.max (flog2 a b - 52) (-1074)) in *. pose proof (B_inv k) as BI. pose proof (B_pos k). pose proof (B_pos (- k)). 
  assert (v * B (- k) <= 1 # 2) by lra. assert (B k * B (- k) <= v * B (- k)) by (apply Qmult_le_compat_r; lra). lra.
Qed.
Lemma near D X : 0 < D -> B (-1021) <= X -> (Qabs (X - D) <= B (-53) * D \/ (D < B (-1022) /\ Qabs (X - D) <= B (-1075))) -> Qabs (X - D) * 9007199254740991 <= X.
Proof.
  intros P N [H|[H1 H2]].
  - rewrite B53 in H. apply Qabs_Qle_condition in H as [H1 H2]. assert (A : Qabs (X - D) <= X * (1 # 9007199254740991)); [|lra].
    apply Qabs_Qle_condition. lra.
  - assert (B (-1075) * 9007199254740991 <= B (-1021)) by (vm_compute; discriminate). lra.
Qed.

Section Found.
Variables (neg : bool) (m : N) (e : Z) (M : N) (E : Z).
Hypothesis P : (0 < m)%N.
Hypothesis P15 : (m < 10 ^ 15)%N.
Hypothesis PE : (-300 <= e)%Z.
Hypothesis H : float_of_dec (DFin neg m e) = FFin neg M E.
Let D := qn m * T e.
Let X := qn M * B E.
Let dp := decpt (float_num M E) (float_den E).
Lemma D_big : T (-300) <= D.
Proof. unfold D. rewrite <- (Qmult_1_l (T (-300))). apply Qmult_le_compat_nonneg; (split; [try lra; apply Qlt_le_weak, T_pos|]); [change 1 with (qn 1); apply qn_le; lia|apply T_le; lia]. Qed.
Lemma DX : Qabs (X - D) <= B (-53) * D.
Proof.
  pose proof (T_pos (-300)). pose proof D_big.
  destruct (round_close neg _ _ _ M E (rat_dec m e) ltac:(fold D; lra) H (float_pos _ _ _ _ _ P PE H)) as [A|[A _]]; [exact A|].
  exfalso. assert (B (-1022) <= T (-300)) by (vm_compute; discriminate). fold D in A. lra.
Qed.
Lemma X_big : B (-1021) <= X.
Proof.
  pose proof DX as A. rewrite B53 in A. apply Qabs_Qle_condition in A as [A _]. pose proof D_big. pose proof (B_pos (-1021)). assert (B (-1021) * 2 <= T (-300)) by (vm_compute; discriminate). lra.
Qed.
Lemma X_pos : 0 < X. Proof. pose proof X_big. pose proof (B_pos (-1021)). lra. Qed.
Lemma dp_bounds : T (dp - 1) <= X /\ X < T dp.
Proof.
  apply decpt_bounds; [|apply rat_float]. unfold float_num. pose proof (float_pos _ _ _ _ _ P PE H). pose proof (pow2_pos E). nia.
Qed.
Lemma D_pos : 0 < D. Proof. pose proof D_big. pose proof (T_pos (-300)). lra. Qed.
(** any decimal that is read as this float is near *)
Lemma any_near m' e' : 0 < qn m' * T e' -> float_of_dec (DFin neg m' e') = FFin neg M E -> Qabs (X - qn m' * T e') * 9007199254740991 <= X.
Proof.
  intros PV R. apply near; auto; [apply X_big|]. exact (round_close neg _ _ _ M E (rat_dec m' e') PV R (float_pos _ _ _ _ _ P PE H)).
Qed.
Lemma small_gap V : Qabs (X - V) * 9007199254740991 <= X -> Qabs (X - V) < T (dp - 15) * (1 # 8).
Proof.
  intros A. destruct dp_bounds as [_ U]. replace dp with (dp - 15 + 15)%Z in U at 1 by lia. rewrite T_add in U. change (T 15) with 1000000000000000 in U. pose proof (T_pos (dp - 15)). lra.
Qed.
Lemma dp_le : (dp - 15 <= e)%Z.
Proof.
  destruct dp_bounds as [L _]. assert (X < T (e + 15)).
  { pose proof DX as A. rewrite B53 in A. apply Qabs_Qle_condition in A as [_ A]. rewrite T_add. change (T 15) with 1000000000000000.
    assert (D <= 999999999999999 * T e). { unfold D. apply Qmult_le_compat_r; [|apply Qlt_le_weak, T_pos]. change 999999999999999 with (qn 999999999999999). apply qn_le. lia. }
    pose proof (T_pos e). lra. }
  assert (dp - 1 < e + 15)%Z by (apply T_lt_inv; lra). lia.
Qed.
(** D is a multiple of 10^(dp-15) *)
Lemma D_multiple : exists d, D == qn d * T (dp - 15).
Proof.
  exists (m * pow10 (e - (dp - 15)))%N. rewrite qn_mul, qn_pow10 by (pose proof dp_le; lia). rewrite <- Qmult_assoc, <- T_add. replace (e - (dp - 15) + (dp - 15))%Z with e by lia. reflexivity.
Qed.
Lemma dec_n_value n : (1 <= n <= 15)%Z -> exists d, dec_n n neg (float_num M E) (float_den E) = DFin neg d (dp - n) /\ exists d', qn d * T (dp - n) == qn d' * T (dp - 15).
Proof.
  intros L. unfold dec_n. fold dp. eexists. split; [reflexivity|]. exists (div_rne (float_num M E * pow10 (- (dp - n))) (float_den E * pow10 (dp - n)) * pow10 (15 - n))%N.
  rewrite qn_mul, qn_pow10 by lia. rewrite <- Qmult_assoc, <- T_add. replace (15 - n + (dp - 15))%Z with (dp - n)%Z by lia. reflexivity.
Qed.
Lemma T_15_eq d : D == qn d * T (dp - 15) -> dec_n 15 neg (float_num M E) (float_den E) = DFin neg d (dp - 15).
Proof.
  intros ED. unfold dec_n. fold dp. f_equal. apply (rat_div_exact _ _ _ d (rat_scale10 _ _ _ (dp - 15) (rat_float M E))). fold X.
  pose proof (small_gap D) as G. assert (GD : Qabs (X - D) * 9007199254740991 <= X) by (apply near; [apply D_pos|apply X_big|left; apply DX]). specialize (G GD).
  apply Qabs_Qlt_condition in G. apply Qabs_Qlt_condition. pose proof (T_inv (dp - 15)) as TI. pose proof (T_pos (dp - 15)) as TP. pose proof (T_pos (- (dp - 15))) as TQ.
  set (t := T (dp - 15)) in *. set (u := T (- (dp - 15))) in *. rewrite ED in G. destruct G as [G1 G2].
  assert (G3 : (- (t * (1 # 8))) * u < (X - qn d * t) * u) by (apply Qmult_lt_r; auto). assert (G4 : (X - qn d * t) * u < t * (1 # 8) * u) by (apply Qmult_lt_r; auto).
  assert (E1 : (- (t * (1 # 8))) * u == - (1 # 8) * (t * u)) by ring. assert (E2 : (X - qn d * t) * u == X * u - qn d * (t * u)) by ring. assert (E3 : t * (1 # 8) * u == (1 # 8) * (t * u)) by ring.
  rewrite E1, E2 in G3. rewrite E2, E3 in G4. rewrite TI in G3, G4. lra.
Qed.
Lemma found_15 d : D == qn d * T (dp - 15) -> float_of_dec (DFin neg d (dp - 15)) = FFin neg M E.
Proof.
  intros ED. rewrite <- H. cbn [float_of_dec]. destruct (rat_dec d (dp - 15)) as [Q1 Q2]. destruct (rat_dec m e) as [Q3 Q4]. fold D in Q4. rewrite <- ED in Q2.
  apply round64_ratio; auto.
  assert (Z : qn (d * pow10 (dp - 15) * pow10 (- e)) == qn (m * pow10 e * pow10 (- (dp - 15)))) by (rewrite (qn_mul (d * _)), (qn_mul (m * _)), Q2, Q4; ring).
  apply N.le_antisymm; apply qn_le; rewrite Z; apply Qle_refl.
Qed.
Lemma V_pos n d : (1 <= n <= 15)%Z -> dec_n n neg (float_num M E) (float_den E) = DFin neg d (dp - n) -> float_of_dec (DFin neg d (dp - n)) = FFin neg M E -> 0 < qn d * T (dp - n).
Proof.
  intros L _ R. apply Qmult_lt_0_compat; [|apply T_pos]. apply qn_pos. destruct d; [|lia]. exfalso. change (FFin neg 0 0 = FFin neg M E) in R. injection R as R _. apply (float_pos _ _ _ _ _ P PE H). congruence.
Qed.
Lemma shortest_is ns : Forall (fun n => 1 <= n <= 15)%Z ns -> exists m' e', shortest (ns ++ [15; 16; 17]%Z) neg M E = DFin neg m' e' /\ qn m' * T e' == D.
Proof.
  destruct D_multiple as [d ED]. induction ns as [|n ns IH]; intros F; cbn [app shortest].
  - rewrite (T_15_eq d ED), (found_15 d ED). rewrite (proj2 (feqb_eq _ _) eq_refl). exists d, (dp - 15)%Z. split; auto. symmetry. exact ED.
  - inversion F as [|? ? L F']; subst. destruct (feqb _ _) eqn:Q; [|apply IH; auto]. apply feqb_eq in Q.
    destruct (dec_n_value n L) as (d1 & E1 & d2 & E2). rewrite E1 in *. exists d1, (dp - n)%Z. split; auto.
    pose proof (any_near _ _ (V_pos n d1 L E1 Q) Q) as G1. assert (G2 : Qabs (X - D) * 9007199254740991 <= X) by (apply near; [apply D_pos|apply X_big|left; apply DX]).
    apply small_gap in G1, G2. rewrite E2, ED in *. assert (d2 = d) as ->; [|reflexivity]. apply (close_multiples (T (dp - 15))); [apply T_pos|].
    apply Qabs_Qlt_condition in G1, G2. apply Qabs_Qlt_condition. pose proof (T_pos (dp - 15)). lra.
Qed.
End Found.

(** ** The text *)
Lemma digits_of_shift n k : (0 < n)%N -> digits_of (n * 10 ^ N.of_nat k) = (digits_of n ++ zeros k)%list.
Proof.
  intros P. assert (U : forall a b, alldigits a = true -> alldigits b = true -> (10 ^ N.of_nat (length a - 1) <= digits_val a)%N -> (10 ^ N.of_nat (length b - 1) <= digits_val b)%N -> a <> [] -> b <> [] -> digits_val a = digits_val b -> a = b).
  2: { assert (G : forall n, (0 < n)%N -> (10 ^ N.of_nat (length (digits_of n) - 1) <= digits_val (digits_of n))%N).
       { intros j J. rewrite digits_of_val. destruct (digits_fuel_bounds (N.to_nat (N.size j)) j J) as [H1 _]; [rewrite N2Nat.id; pose proof (N.size_gt j); lia|exact H1]. }
       assert (P10 : (0 < n * 10 ^ N.of_nat k)%N). { pose proof (N.pow_nonzero 10 (N.of_nat k) ltac:(lia)). nia. }
       apply U; try apply digits_of_digits; try apply digits_of_ne; auto.
       - apply alldigits_app. split; [apply digits_of_digits|apply zeros_digits].
       - rewrite digits_val_app, digits_val_zeros, zeros_length, app_length, zeros_length. specialize (G n P).
         pose proof (digits_of_ne n). assert (length (digits_of n) <> 0)%nat by (destruct (digits_of n); [congruence|discriminate]).
         replace (length (digits_of n) + k - 1)%nat with (length (digits_of n) - 1 + k)%nat by lia. rewrite Nat2N.inj_add, N.pow_add_r. nia.
       - intros X. apply app_eq_nil in X as [X _]. apply (digits_of_ne n X).
       - rewrite digits_of_val, digits_val_app, digits_val_zeros, zeros_length, digits_of_val. lia. }
  assert (UB : forall a, alldigits a = true -> (digits_val a < 10 ^ N.of_nat (length a))%N).
  { clear. induction a as [|c a IH] using rev_ind; intros A; [reflexivity|]. apply alldigits_app in A as [A1 A2]. rewrite digits_val_snoc, app_length. specialize (IH A1). cbn [length].
    rewrite Nat2N.inj_add, N.pow_add_r. change (10 ^ N.of_nat 1)%N with 10%N. unfold alldigits in A2. cbn [forallb] in A2. rewrite andb_true_r in A2. unfold is_digit in A2. apply andb_true_iff in A2 as [B1 B2]. unfold digit_val.
    apply N.leb_le in B1, B2. nia. }
  assert (UL : forall a b, length a = length b -> alldigits a = true -> alldigits b = true -> digits_val a = digits_val b -> a = b).
  { clear. induction a as [|c a IH] using rev_ind; intros b L A Bd V; [destruct b; [auto|discriminate]|].
    destruct b as [|c' b _] using rev_ind; [rewrite app_length in L; cbn in L; lia|]. rewrite !app_length in L. cbn [length] in L. apply alldigits_app in A as [A1 A2]. apply alldigits_app in Bd as [B1 B2]. rewrite !digits_val_snoc in V.
    assert (D : forall x, alldigits [x] = true -> (digit_val x < 10)%N /\ x = digit_char (digit_val x)).
    { intros x. cbn. rewrite andb_true_r. revert x. intros [[] [] [] [] [] [] [] []]; cbn; intros Q; try discriminate Q; split; reflexivity. }
    destruct (D c A2) as [D1 D2]. destruct (D c' B2) as [D3 D4]. assert (digits_val a = digits_val b /\ digit_val c = digit_val c') as [V1 V2] by lia.
    rewrite (IH b); auto; [|lia]. f_equal. f_equal. rewrite D2, D4, V2. reflexivity. }
  intros a b A Bd LA LB NA NB V. apply UL; auto. pose proof (UB a A) as UA. pose proof (UB b Bd) as UBb.
  assert (length a <> 0 /\ length b <> 0)%nat as [ZA ZB] by (split; [destruct a; [congruence|discriminate]|destruct b; [congruence|discriminate]]).
  assert (N.of_nat (length a - 1) < N.of_nat (length b))%N by (apply (N.pow_lt_mono_r_iff 10); lia). assert (N.of_nat (length b - 1) < N.of_nat (length a))%N by (apply (N.pow_lt_mono_r_iff 10); lia). lia.
Qed.
Lemma rzeros_zeros l k : rzeros (l ++ zeros k)%list = rzeros l.
Proof. unfold rzeros. rewrite rev_app_distr, rev_zeros. f_equal. induction k as [|k IH]; auto. Qed.
Lemma repr_dec_shift neg m e k : repr_dec neg (m * 10 ^ N.of_nat k) (e - Z.of_nat k) = repr_dec neg m e.
Proof.
  unfold repr_dec. destruct (N.eqb_spec m 0) as [->|M]; [reflexivity|]. pose proof (N.pow_nonzero 10 (N.of_nat k) ltac:(lia)). destruct (N.eqb_spec (m * 10 ^ N.of_nat k) 0); [nia|].
  rewrite digits_of_shift by lia. rewrite rzeros_zeros, app_length, zeros_length. f_equal. f_equal. lia.
Qed.
Lemma repr_dec_value neg m e m' e' : qn m * T e == qn m' * T e' -> repr_dec neg m e = repr_dec neg m' e'.
Proof.
  assert (W : forall m e m' e', (e' <= e)%Z -> qn m * T e == qn m' * T e' -> repr_dec neg m e = repr_dec neg m' e').
  { clear. intros m e m' e' L V. rewrite <- (repr_dec_shift neg m e (Z.to_nat (e - e'))). rewrite Z2Nat.id by lia. replace (e - (e - e'))%Z with e' by lia. f_equal.
    assert (V' : qn (m * 10 ^ N.of_nat (Z.to_nat (e - e'))) == qn m').
    { rewrite qn_mul, qn_pow, Z_nat_N, Z2N.id by lia. change (qn 10 ^ (e - e')) with (T (e - e')).
      pose proof (T_inv e') as I. replace e with (e - e' + e')%Z in V at 1 by lia. rewrite T_add in V.
      assert (V2 : qn m * T (e - e') * (T e' * T (- e')) == qn m' * (T e' * T (- e'))). { rewrite !Qmult_assoc. rewrite Qmult_assoc in V. rewrite V. reflexivity. }
      rewrite I in V2. rewrite !Qmult_1_r in V2. exact V2. }
    apply N.le_antisymm; apply qn_le; rewrite V'; apply Qle_refl. }
  intros V. destruct (Z.le_ge_cases e' e) as [L|L]; [auto|]. symmetry. apply W; auto. symmetry. exact V.
Qed.
(** at most fifteen digits, a moderate exponent: str(float(...)) is the decimal itself *)
Theorem repr_short neg m e : (m < 10 ^ 15)%N -> (-250 <= e <= 250)%Z -> repr_float (float_of_dec (DFin neg m e)) = repr_dec neg m e.
Proof.
  intros L R. destruct (N.eq_dec m 0) as [->|M]; [reflexivity|].
  assert (exists M E, float_of_dec (DFin neg m e) = FFin neg M E) as (M1 & E1 & H).
  { cbn [float_of_dec]. pose proof (rat_dec m e) as RD.
    assert (A0 : (m * pow10 e <> 0)%N) by (pose proof (pow10_pos e); nia).
    destruct (round64_nearest neg (m * pow10 e) (pow10 (- e)) 0 0 (pow10_pos _)) as (m' & e' & E & _); [lia|lia|unfold val; pose proof (pow10_pos (- e)); assert (0 < 2 ^ (900 + 1074))%Z by reflexivity; nia| |exists m', e'; exact E].
    unfold val. change (900 + 1074)%Z with 1974%Z. rewrite Z.mul_1_l. destruct RD as [Pb RD]. 
    assert (S : qn (m * pow10 e) < qn (pow10 (- e)) * qn (2 ^ 900)).
    { rewrite RD, Qmult_comm. apply Qmult_lt_l; [apply qn_pos; auto|]. apply Qle_lt_trans with (qn (10 ^ 15) * T 250); [|vm_compute; reflexivity].
      apply Qmult_le_compat_nonneg; (split; [try apply qn_nonneg; apply Qlt_le_weak, T_pos|]); [apply qn_le; lia|apply T_le; lia]. }
    rewrite <- qn_mul in S. apply qn_lt in S. assert (K : (2 ^ 1974 = 2 ^ 900 * K1074)%Z) by (vm_compute; reflexivity). rewrite K. pose proof K1074_pos.
    assert (S' : (Z.of_N (m * pow10 e) < Z.of_N (pow10 (- e)) * 2 ^ 900)%Z). { apply N2Z.inj_lt in S. rewrite (N2Z.inj_mul (pow10 (- e))), (N2Z.inj_pow 2 900) in S. exact S. }
    nia. }
  rewrite H. unfold repr_float. pose proof (float_pos neg m e M1 E1 ltac:(lia) ltac:(lia) H) as M0. destruct (N.eqb_spec M1 0); [congruence|].
  destruct (shortest_is neg m e M1 E1 ltac:(lia) L ltac:(lia) H [1;2;3;4;5;6;7;8;9;10;11;12;13;14]%Z) as (m' & e' & S & V); [repeat (constructor; [lia|]); constructor|].
  change repr_digits with ([1;2;3;4;5;6;7;8;9;10;11;12;13;14] ++ [15; 16; 17])%list%Z. rewrite S. apply repr_dec_value. exact V.
Qed.
Print Assumptions repr_short.
