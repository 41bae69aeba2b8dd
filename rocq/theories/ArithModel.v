(** The two number systems over which the POSCAR model is used: IEEE doubles (with
    arbitrary numpy.dot and numpy.linalg.inv, whose rounding depends on the
    installed linear algebra library) and exact rationals. *)
From Coq Require Import Ascii String List NArith ZArith QArith Qabs Qpower Bool Lia Lqa.
From Verif Require Import PyBase PyNum PyStrLemmas PyNumLemmas PyFmtLemmas PyLines UtilsModel PoscarModel.
Import ListNotations.
Local Open Scope list_scope.
Local Open Scope bool_scope.

(** ** IEEE doubles *)
(** Python float multiplication: correctly rounded product; no /repo code *)
Definition fmul (x y : float) : float :=
  match x, y with
  | FNan, _ | _, FNan => FNan
  | FInf a, FInf b => FInf (xorb a b)
  | FInf a, FFin b m _ | FFin b m _, FInf a => if (m =? 0)%N then FNan else FInf (xorb a b)
  | FFin a m e, FFin b n f => round64 (xorb a b) (float_num (m * n) (e + f)) (float_den (e + f))
  end.
(** x < 0.0 *)
Definition fneg (x : float) : bool :=
  match x with FFin s m _ => s && negb (m =? 0)%N | FInf s => s | FNan => false end.
Definition fone : float := FFin false 1 0.
Definition binary64 (dot : list float -> list (list float) -> list float)
                    (inv : list (list float) -> option (list (list float))) : arith :=
  Arith float parse_float fneg fone fmul dot inv fmt_f.

(** ** Exact rationals: the mathematical meaning of the same operations.  A number
    token is a finite decimal; 'inf' and 'nan' are not numbers here. *)
Definition qparse (t : str) : option Q :=
  match parse_dec t with Some (DFin s m e) => Some (Qred (dval (DFin s m e))) | _ => None end.
Definition qneg (x : Q) : bool := (Qnum x <? 0)%Z.
Definition qfmt (w p : nat) (x : Q) : str :=
  pad_left w (fixed_ratio p (qneg x) (Z.abs_N (Qnum x)) (Npos (Qden x))).
(** row vector times matrix *)
Definition qscale (a : Q) (r : list Q) : list Q := map (Qmult a) r.
Fixpoint qadd (x y : list Q) : list Q :=
  match x, y with a :: x', b :: y' => (a + b)%Q :: qadd x' y' | _, _ => [] end.
Fixpoint qdot (v : list Q) (m : list (list Q)) : list Q :=
  match v, m with
  | [a], [r] => qscale a r
  | a :: v', r :: m' => qadd (qscale a r) (qdot v' m')
  | _, _ => []
  end.
(** the inverse of a 3x3 matrix; matrices of other sizes are not used *)
Definition det3 (a b c d e f g h i : Q) : Q := (a * (e * i - f * h) - b * (d * i - f * g) + c * (d * h - e * g))%Q.
Definition qinv (m : list (list Q)) : option (list (list Q)) :=
  match m with
  | [[a; b; c]; [d; e; f]; [g; h; i]] =>
      let D := det3 a b c d e f g h i in
      if Qeq_bool D 0 then None
      else Some [[(e * i - f * h) / D; (c * h - b * i) / D; (b * f - c * e) / D];
                 [(f * g - d * i) / D; (a * i - c * g) / D; (c * d - a * f) / D];
                 [(d * h - e * g) / D; (b * g - a * h) / D; (a * e - b * d) / D]]%Q
  | _ => None
  end.
Definition exact : arith := Arith Q qparse qneg 1%Q Qmult qdot qinv qfmt.

(** ** What the proofs need from a number system *)
(** multiplying by one changes nothing that was read *)
Record unit_ok (A : arith) : Prop := {
  uo_r : forall t x, nparse A t = Some x -> nmul A x (n1 A) = x;
  uo_l : forall t x, nparse A t = Some x -> nmul A (n1 A) x = x;
  uo_neg : nneg A (n1 A) = false }.
(** a number is written as one token, which reads back as [rr] of it *)
Record fmt_ok (A : arith) (p : nat) (rr : num A -> num A) : Prop := {
  fo_pad : forall w x, nfmt A w p x = pad_left w (nfmt A 0 p x);
  fo_token : forall x, is_token (nfmt A 0 p x) = true;
  fo_parse : forall x, nparse A (nfmt A 0 p x) = Some (rr x);
  fo_number : forall x, is_number (nfmt A 0 p x) = true;
  fo_one : rr (n1 A) = n1 A }.

Lemma fmul_one_r x : wf_float x -> fmul x fone = x.
Proof.
  destruct x as [s m e| |]; cbn; intros W; auto.
  - rewrite xorb_false_r, N.mul_1_r, Z.add_0_r. apply round64_exact; auto.
  - rewrite xorb_false_r; auto.
Qed.
Lemma fmul_one_l x : wf_float x -> fmul fone x = x.
Proof.
  destruct x as [s m e|s|]; cbn [fmul fone]; intros W; auto.
  - rewrite xorb_false_l. replace (1 * m)%N with m by lia. apply round64_exact; auto.
  - destruct s; reflexivity.
Qed.
Lemma binary64_unit d i : unit_ok (binary64 d i).
Proof.
  constructor; cbn.
  - intros t x H. apply fmul_one_r. eapply parse_float_wf; eauto.
  - intros t x H. apply fmul_one_l. eapply parse_float_wf; eauto.
  - reflexivity.
Qed.
Lemma reread_one p : reread p fone = fone.
Proof.
  unfold reread, fone, fixed_q. change (float_num 1 0) with 1%N. change (float_den 0) with 1%N. rewrite N.mul_1_l.
  assert (div_rne (10 ^ N.of_nat p) 1 = 10 ^ N.of_nat p)%N as ->.
  { unfold div_rne. rewrite N.div_1_r, N.mod_1_r. reflexivity. }
  unfold float_of_dec. change (FFin false 1 0) with (round64 false 1 1).
  assert (0 < pow10 (- - Z.of_nat p))%N as P by (unfold pow10; apply N.neq_0_lt_0, N.pow_nonzero; discriminate).
  apply round64_ratio; [auto|reflexivity|].
  unfold pow10. replace (Z.to_N (- Z.of_nat p)) with (N.of_nat 0) by (destruct p; cbn; lia).
  replace (Z.to_N (- - Z.of_nat p)) with (N.of_nat p) by lia. rewrite N.pow_0_r. lia.
Qed.
Lemma binary64_fmt d i p : fmt_ok (binary64 d i) p (reread p).
Proof.
  constructor; cbn [binary64 nfmt nparse n1 num].
  - intros w x. unfold fmt_f, pad_left. reflexivity.
  - apply fixed_text_token.
  - apply parse_float_fixed.
  - intros x. pose proof (parse_float_fixed p x) as H. unfold is_number. unfold fixed_text in H. rewrite H. reflexivity.
  - apply reread_one.
Qed.

Lemma exact_unit : unit_ok exact.
Proof.
  constructor; cbn; [| |reflexivity].
  - intros _ [n d] _. unfold Qmult. cbn. rewrite Z.mul_1_r, Pos.mul_1_r. reflexivity.
  - intros _ [n d] _. unfold Qmult. cbn [Qnum Qden]. rewrite Z.mul_1_l, Pos.mul_1_l. reflexivity.
Qed.
(** the decimal written for a rational *)
Definition qround (p : nat) (x : Q) : Q :=
  Qred (dval (DFin (qneg x) (div_rne (Z.abs_N (Qnum x) * 10 ^ N.of_nat p) (Npos (Qden x))) (- Z.of_nat p))).
Lemma pow10_inv p : ((10 # 1) ^ (- Z.of_nat p) == / inject_Z (10 ^ Z.of_nat p))%Q.
Proof. rewrite Qpower_opp. rewrite Zpower_Qpower by lia. reflexivity. Qed.
Lemma qround_one p : qround p 1 = 1%Q.
Proof.
  unfold qround. cbn [Qnum Qden qneg].
  assert (div_rne (Z.abs_N 1 * 10 ^ N.of_nat p) 1 = 10 ^ N.of_nat p)%N as ->.
  { change (Z.abs_N 1) with 1%N. rewrite N.mul_1_l. unfold div_rne. rewrite N.div_1_r, N.mod_1_r. reflexivity. }
  change 1%Q with (Qred 1) at 2. apply Qred_complete. cbn [dval].
  change (qneg 1) with false. cbv iota.
  rewrite pow10_inv, pow_Z_N. change (Z.of_N 10) with 10%Z.
  assert (0 < 10 ^ Z.of_nat p)%Z as TP by (apply Z.pow_pos_nonneg; lia).
  field. intros K. unfold Qeq in K. cbn in K. lia.
Qed.
Lemma qfmt0 p x : qfmt 0 p x = fixed_ratio p (qneg x) (Z.abs_N (Qnum x)) (Npos (Qden x)).
Proof. reflexivity. Qed.
Lemma exact_fmt p : fmt_ok exact p (qround p).
Proof.
  constructor; cbn [exact nfmt nparse n1 num].
  - intros w x. reflexivity.
  - intros x. rewrite qfmt0. destruct (fixed_ratio_props p (qneg x) (Z.abs_N (Qnum x)) (Npos (Qden x))) as [_ [H1 H2]].
    apply is_token_intro; auto. apply numeric_nospace; auto.
  - intros x. rewrite qfmt0. unfold qparse.
    destruct (fixed_ratio_props p (qneg x) (Z.abs_N (Qnum x)) (Npos (Qden x))) as [-> _]. reflexivity.
  - intros x. rewrite qfmt0. unfold is_number, parse_float.
    destruct (fixed_ratio_props p (qneg x) (Z.abs_N (Qnum x)) (Npos (Qden x))) as [-> _]. reflexivity.
  - apply qround_one.
Qed.
(** a written rational is within half a unit of the last decimal *)
Lemma qround_error p x : (Qabs (qround p x - x) <= / (2 * inject_Z (10 ^ Z.of_nat p)))%Q.
Proof.
  unfold qround. rewrite Qred_correct. cbn [dval]. rewrite pow10_inv.
  destruct x as [n d]. cbn [Qnum Qden].
  assert (0 < N.pos d)%N as Hd by lia.
  destruct (div_rne_error (Z.abs_N n * 10 ^ N.of_nat p) (N.pos d) Hd) as [E1 E2].
  set (q := div_rne (Z.abs_N n * 10 ^ N.of_nat p) (N.pos d)) in *.
  assert (0 < 10 ^ Z.of_nat p)%Z as TP by (apply Z.pow_pos_nonneg; lia).
  assert (Z.of_N (10 ^ N.of_nat p) = 10 ^ Z.of_nat p)%Z as ET by (rewrite pow_Z_N; reflexivity).
  set (T := (10 ^ Z.of_nat p)%Z) in *. set (TN := (10 ^ N.of_nat p)%N) in *.
  assert (Z.abs (2 * (Z.of_N q * Z.pos d - Z.abs n * T)) <= Z.pos d)%Z as B.
  { pose proof (N2Z.inj_abs_N n). rewrite <- ET. nia. }
  unfold qneg. cbn [Qnum].
  assert (~ inject_Z T == 0)%Q as TN0 by (unfold Qeq; cbn; lia).
  assert (~ inject_Z (Z.pos d) == 0)%Q as DN0 by (unfold Qeq; cbn; lia).
  assert (n # d == inject_Z n / inject_Z (Z.pos d))%Q as En by (apply Qmake_Qdiv).
  assert ((if (n <? 0)%Z then -1 else 1) * inject_Z (Z.of_N q) * / inject_Z T - (n # d) ==
    (if (n <? 0)%Z then -1 else 1) * (inject_Z (Z.of_N q * Z.pos d - Z.abs n * T) / (inject_Z T * inject_Z (Z.pos d))))%Q as ->.
  { rewrite En. unfold Z.sub. rewrite inject_Z_plus, inject_Z_opp, !inject_Z_mult.
    destruct (Z.ltb_spec n 0) as [L|L].
    - rewrite Z.abs_neq by lia. rewrite inject_Z_opp. field. auto.
    - rewrite Z.abs_eq by lia. field. auto. }
  rewrite Qabs_Qmult. assert (Qabs (if (n <? 0)%Z then -1 else 1) == 1)%Q as -> by (destruct (n <? 0)%Z; reflexivity).
  rewrite Qmult_1_l. unfold Qdiv. rewrite Qabs_Qmult.
  assert (0 < inject_Z T * inject_Z (Z.pos d))%Q as TD.
  { rewrite <- inject_Z_mult. unfold Qlt. cbn. lia. }
  rewrite (Qabs_pos (/ _)) by (apply Qlt_le_weak, Qinv_lt_0_compat; auto).
  apply Qle_shift_div_r; auto.
  assert (/ (2 * inject_Z T) * (inject_Z T * inject_Z (Z.pos d)) == inject_Z (Z.pos d) / 2)%Q as -> by (field; auto).
  apply Qle_shift_div_l; [reflexivity|].
  change (Qabs (inject_Z (Z.of_N q * Z.pos d - Z.abs n * T))) with (inject_Z (Z.abs (Z.of_N q * Z.pos d - Z.abs n * T))).
  change 2%Q with (inject_Z 2). rewrite <- inject_Z_mult, <- Zle_Qle. lia.
Qed.

(** ** The exact inverse *)
Definition veq (a b : list Q) : Prop := Forall2 Qeq a b.
Lemma qinv_spec m i x y z : qinv m = Some i ->
  veq (qdot (qdot [x; y; z] i) m) [x; y; z] /\ veq (qdot (qdot [x; y; z] m) i) [x; y; z].
Proof.
  unfold qinv. destruct m as [|[|a [|b [|c []]]] [|[|d [|e [|f []]]] [|[|g [|h [|k []]]] []]]]; try discriminate.
  destruct (Qeq_bool (det3 a b c d e f g h k) 0) eqn:D; try discriminate. intros H. inversion H. subst i. clear H.
  apply Qeq_bool_neq in D. cbn [qdot qadd qscale map]. split; repeat constructor; unfold det3 in *; field; auto.
Qed.
Lemma qinv_some a b c d e f g h i : ~ (det3 a b c d e f g h i == 0)%Q -> exists j, qinv [[a; b; c]; [d; e; f]; [g; h; i]] = Some j.
Proof.
  intros D. unfold qinv. destruct (Qeq_bool (det3 a b c d e f g h i) 0) eqn:E; [apply Qeq_bool_iff in E; contradiction|eauto].
Qed.
Lemma qinv_shape m i : qinv m = Some i -> exists a b c d e f g h k, i = [[a; b; c]; [d; e; f]; [g; h; k]].
Proof.
  unfold qinv. destruct m as [|[|a [|b [|c []]]] [|[|d [|e [|f []]]] [|[|g [|h [|k []]]] []]]]; try discriminate.
  destruct (Qeq_bool _ 0); try discriminate. intros H. inversion H. repeat eexists.
Qed.
