(** Facts about the fixed-point format [{:w.pf}]: what it prints reads back as
    the nearest float of the printed decimal, at most one unit of the last
    printed digit away, and printing that float again gives the same text. *)
From Coq Require Import Ascii String List NArith ZArith Bool Lia Arith QArith Qabs Qpower Lqa.
From Verif Require Import PyBase PyNum PyStrLemmas PyNumLemmas.
Import ListNotations.
Local Open Scope list_scope.
Local Open Scope bool_scope.
Local Open Scope nat_scope.

(** ** Padding *)
Lemma blank_repeat n : blank (repeat sp n) = true.
Proof. unfold blank. induction n; cbn; auto. Qed.
Lemma pad_left_spec w s : exists p, blank p = true /\ pad_left w s = p ++ s.
Proof. unfold pad_left. eexists. split; [apply blank_repeat|reflexivity]. Qed.

(** ** The printed literal *)
Definition fixed_q (p : nat) (m : N) (e : Z) : N :=
  div_rne (float_num m e * 10 ^ N.of_nat p) (float_den e).

Lemma fixed_digits_lit p q : exists ip ofp,
  fixed_digits p q = ip ++ frac_str ofp /\ alldigits ip = true /\
  alldigits (frac_digits ofp) = true /\ ip <> [] /\
  digits_val (ip ++ frac_digits ofp) = q /\ length (frac_digits ofp) = p.
Proof.
  unfold fixed_digits.
  set (d0 := digits_of q). set (ds := zeros (S p - length d0) ++ d0).
  assert (alldigits ds = true) as Hd.
  { unfold ds. apply alldigits_app. split; [apply zeros_digits|apply digits_of_digits]. }
  assert (digits_val ds = q) as Hv.
  { unfold ds. rewrite digits_val_app, digits_val_zeros. unfold d0. rewrite digits_of_val. lia. }
  assert (S p <= length ds) as Hl.
  { unfold ds. rewrite app_length, zeros_length. lia. }
  set (k := length ds - p). assert (0 < k <= length ds) as Hk by lia.
  pose proof (firstn_skipn k ds) as FS.
  assert (alldigits (firstn k ds) = true /\ alldigits (skipn k ds) = true) as [D1 D2].
  { rewrite <- FS in Hd. apply alldigits_app in Hd. exact Hd. }
  assert (firstn k ds <> []) as Hne.
  { intros K. apply (f_equal (@length _)) in K. rewrite firstn_length in K. change (length (@nil ascii)) with 0 in K. lia. }
  destruct p as [|p].
  - exists ds, None. cbn [frac_str frac_digits]. rewrite !app_nil_r.
    repeat (split; auto). intros K. rewrite K in Hl. cbn in Hl. lia.
  - exists (firstn k ds), (Some (skipn k ds)). cbn [frac_str frac_digits].
    rewrite FS. repeat (split; auto). rewrite skipn_length. lia.
Qed.

Lemma fixed_ratio_props p neg a b :
  let s := fixed_ratio p neg a b in
  parse_dec s = Some (DFin neg (div_rne (a * 10 ^ N.of_nat p) b) (- Z.of_nat p)) /\
  forallb numeric_char s = true /\ s <> [].
Proof.
  cbv zeta. unfold fixed_ratio.
  destruct (fixed_digits_lit p (div_rne (a * 10 ^ N.of_nat p) b)) as [ip [ofp [E [Hi [Hf [Hne [Hv Hl]]]]]]].
  rewrite E. pose proof (parse_dec_lit neg ip ofp None Hi Hf eq_refl) as P.
  cbn [expo_str expo_val] in P. rewrite app_nil_r in P.
  split; [|split].
  - rewrite P by (destruct ip; [congruence|discriminate]). rewrite Hv, Hl. do 2 f_equal; lia.
  - rewrite !forallb_app, sign_numeric, digits_numeric, frac_numeric by auto. reflexivity.
  - intros K. apply app_eq_nil in K as [_ K]. apply app_eq_nil in K as [K _]. congruence.
Qed.

(** The text of a number without padding *)
Definition fixed_text (p : nat) (x : float) : str := fmt_f 0 p x.
Lemma fmt_f_pad w p x : exists b, blank b = true /\ fmt_f w p x = b ++ fixed_text p x.
Proof. unfold fixed_text, fmt_f. apply pad_left_spec. Qed.

Lemma fixed_text_fin p neg m e :
  fixed_text p (FFin neg m e) = fixed_ratio p neg (float_num m e) (float_den e).
Proof. unfold fixed_text, fmt_f, pad_left. reflexivity. Qed.

Lemma fixed_text_token p x : is_token (fixed_text p x) = true.
Proof.
  destruct x as [neg m e|neg|].
  - rewrite fixed_text_fin. destruct (fixed_ratio_props p neg (float_num m e) (float_den e)) as [_ [H1 H2]].
    apply is_token_intro; auto. apply numeric_nospace; auto.
  - destruct neg; reflexivity.
  - reflexivity.
Qed.
Lemma fixed_text_nospace p x : nospace (fixed_text p x) = true.
Proof. apply is_token_nospace, fixed_text_token. Qed.

(** ** Rounding is to a nearest float *)
(** 2^1074 times m*2^e *)
Definition val (m : N) (e : Z) : Z := (Z.of_N m * 2 ^ (e + 1074))%Z.
Definition K1074 : Z := (2 ^ 1074)%Z.
Lemma K1074_pos : (0 < K1074)%Z. Proof. reflexivity. Qed.
Opaque K1074.

Lemma pow2_Z e : (0 <= e)%Z -> Z.of_N (pow2 e) = (2 ^ e)%Z.
Proof. intros H. unfold pow2. rewrite N2Z.inj_pow, Z2N.id by auto. reflexivity. Qed.
Lemma pow2_neg e : (e <= 0)%Z -> pow2 e = 1%N.
Proof. intros H. unfold pow2. replace (Z.to_N e) with 0%N by lia. reflexivity. Qed.

(** m*2^e as a ratio, scaled *)
Lemma val_ratio m e : (-1074 <= e)%Z ->
  (val m e * Z.of_N (float_den e) = Z.of_N (float_num m e) * K1074)%Z.
Proof.
  intros H. unfold val, float_num, float_den.
  assert (K1074 = 2 ^ 1074)%Z as -> by reflexivity.
  destruct (Z.le_gt_cases 0 e) as [P|P].
  - rewrite (pow2_neg (- e)) by lia. rewrite N2Z.inj_mul, pow2_Z by lia.
    rewrite Z.pow_add_r by lia. ring.
  - rewrite (pow2_neg e) by lia. rewrite N.mul_1_r, pow2_Z by lia.
    rewrite <- Z.mul_assoc, <- Z.pow_add_r by lia. do 2 f_equal. lia.
Qed.

Lemma val_shift m e k : (-1074 <= e)%Z -> (0 <= k)%Z -> val (m * pow2 k) e = val m (e + k).
Proof.
  intros. unfold val. rewrite N2Z.inj_mul, pow2_Z by auto.
  replace (e + k + 1074)%Z with (k + (e + 1074))%Z by lia.
  rewrite (Z.pow_add_r 2 k) by lia. ring.
Qed.

(** the nearest integer is nearest *)
Lemma div_rne_nearest a b k : (0 < b)%N ->
  (Z.abs (Z.of_N (div_rne a b) * Z.of_N b - Z.of_N a) <= Z.abs (Z.of_N k * Z.of_N b - Z.of_N a))%Z.
Proof.
  intros Hb. destruct (div_rne_error a b Hb) as [E1 E2].
  set (q := div_rne a b) in *.
  destruct (N.eq_dec k q) as [->|Hne]; [lia|].
  assert (Z.abs (2 * (Z.of_N q * Z.of_N b - Z.of_N a)) <= Z.of_N b)%Z as A by nia.
  assert (Z.of_N b <= Z.abs (Z.of_N k * Z.of_N b - Z.of_N q * Z.of_N b))%Z as B.
  { replace (Z.of_N k * Z.of_N b - Z.of_N q * Z.of_N b)%Z with ((Z.of_N k - Z.of_N q) * Z.of_N b)%Z by ring.
    rewrite Z.abs_mul. nia. }
  lia.
Qed.

(** The unnormalised result of rounding a/b: q * 2^e. *)
Definition rexp (a b : N) : Z := Z.max (flog2 a b - 52) (-1074).
Definition rquo (a b : N) : N := div_rne (a * pow2 (- rexp a b)) (b * pow2 (rexp a b)).

Lemma round64_eq neg a b : (a <> 0)%N -> round64 neg a b =
  let (m, e') := norm2 (rquo a b) (rexp a b) in
  if (m =? 0)%N then FFin neg 0 0
  else if (2 ^ 1024 <=? rquo a b * pow2 (rexp a b))%N then FInf neg else FFin neg m e'.
Proof.
  intros Ha. unfold round64. destruct (N.eqb_spec a 0); [congruence|]. reflexivity.
Qed.

(** distance in units of 1/(b * 2^1074) *)
Definition dist (a b : N) (v : Z) : Z := Z.abs (Z.of_N b * v - Z.of_N a * K1074).

Lemma rquo_scaled a b : (0 < b)%N ->
  let e := rexp a b in
  exists s, (0 < s)%Z /\ forall k, (s * dist a b (val k e) =
    Z.abs (Z.of_N k * Z.of_N (b * pow2 e) - Z.of_N (a * pow2 (- e))) * K1074)%Z.
Proof.
  intros Hb e. exists (Z.of_N (pow2 (- e))). split; [pose proof (pow2_pos (-e)); lia|].
  intros j. unfold dist.
  rewrite <- (Z.abs_eq (Z.of_N (pow2 (-e)))) by lia.
  rewrite <- (Z.abs_eq K1074) at 2 by (pose proof K1074_pos; lia).
  rewrite <- !Z.abs_mul. f_equal.
  assert (-1074 <= e)%Z as He by (unfold e, rexp; lia).
  pose proof (val_ratio j e He) as V. unfold float_num, float_den in V.
  rewrite N2Z.inj_mul in V. rewrite !N2Z.inj_mul.
  transitivity (Z.of_N b * (val j e * Z.of_N (pow2 (- e))) - Z.of_N (pow2 (- e)) * Z.of_N a * K1074)%Z; [ring|].
  rewrite V. ring.
Qed.

Lemma rquo_nearest_grid a b k : (0 < b)%N ->
  (dist a b (val (rquo a b) (rexp a b)) <= dist a b (val k (rexp a b)))%Z.
Proof.
  intros Hb. destruct (rquo_scaled a b Hb) as [s [Hs E]].
  pose proof (E (rquo a b)) as E1. pose proof (E k) as E2.
  pose proof (pow2_pos (rexp a b)).
  pose proof (div_rne_nearest (a * pow2 (- rexp a b)) (b * pow2 (rexp a b)) k ltac:(nia)) as D.
  fold (rquo a b) in D. pose proof K1074_pos.
  apply (Zmult_le_reg_r _ _ s); [lia|]. rewrite !(Z.mul_comm _ s), E1, E2.
  apply Z.mul_le_mono_nonneg_r; lia.
Qed.

(** 2^k <= a/b, scaled *)
Lemma lge_scaled a b k : (-1074 <= k)%Z -> lge a b k -> (Z.of_N b * val 1 k <= Z.of_N a * K1074)%Z.
Proof.
  intros Hk H. unfold lge in H.
  pose proof (val_ratio 1 k Hk) as V. unfold float_num, float_den in V. rewrite N.mul_1_l in V.
  pose proof (pow2_pos (- k)). pose proof K1074_pos.
  apply (Zmult_le_reg_r _ _ (Z.of_N (pow2 (-k)))); [lia|].
  rewrite <- Z.mul_assoc, V. nia.
Qed.

Lemma rquo_nearest a b m e : (0 < a)%N -> (0 < b)%N -> (m < 2 ^ 53)%N -> (-1074 <= e)%Z ->
  (dist a b (val (rquo a b) (rexp a b)) <= dist a b (val m e))%Z.
Proof.
  intros Ha Hb Hm He. destruct (Z.le_gt_cases (rexp a b) e) as [P|P].
  - replace (val m e) with (val (m * pow2 (e - rexp a b)) (rexp a b)).
    + apply rquo_nearest_grid; auto.
    + assert (-1074 <= rexp a b)%Z by (unfold rexp; lia). rewrite val_shift by lia. f_equal. lia.
  - assert (rexp a b = flog2 a b - 52)%Z as RE by (unfold rexp in *; lia).
    eapply Z.le_trans; [apply (rquo_nearest_grid a b (2 ^ 52) Hb)|].
    destruct (flog2_spec a b Ha Hb) as [F _].
    assert (val (2 ^ 52) (rexp a b) = val 1 (flog2 a b)) as V.
    { change (2 ^ 52)%N with (1 * pow2 52)%N. rewrite val_shift by lia. f_equal. lia. }
    pose proof (lge_scaled a b (flog2 a b) ltac:(lia) F) as L. rewrite <- V in L.
    assert (val m e <= val (2 ^ 52) (rexp a b))%Z as LE.
    { rewrite RE. unfold val.
      apply Z.le_trans with (2 ^ 53 * 2 ^ (e + 1074))%Z; [apply Z.mul_le_mono_nonneg_r; [|lia]; apply Z.pow_nonneg; lia|].
      change (Z.of_N (2 ^ 52)) with (2 ^ 52)%Z. rewrite <- !Z.pow_add_r by lia.
      apply Z.pow_le_mono_r; lia. }
    unfold dist. nia.
Qed.

Lemma norm2_val q e : (-1074 <= e)%Z -> let (m, e') := norm2 q e in (q <> 0 -> m <> 0)%N /\ (m <> 0%N -> val m e' = val q e) /\ (q = 0%N -> m = 0%N).
Proof.
  intros He. destruct (N.eq_dec q 0) as [->|Hq].
  - cbn. repeat split; congruence.
  - pose proof (norm2_spec q e Hq) as S. destruct (norm2 q e) as [m e'].
    destruct S as [S1 [S2 S3]]. split; [|split; [|congruence]].
    + intros _ ->. discriminate.
    + intros _. rewrite S3, val_shift by lia. f_equal. lia.
Qed.

(** Rounding a/b is at least as close as any float m*2^e, unless it overflows;
    it does not overflow if a/b is below 2^1023 *)
Lemma round64_nearest neg a b m e : (0 < b)%N -> (m < 2 ^ 53)%N -> (-1074 <= e)%Z ->
  (Z.of_N b * val m e < Z.of_N b * val 1 900)%Z ->
  (Z.of_N a * K1074 < Z.of_N b * val 1 900)%Z ->
  exists m' e', round64 neg a b = FFin neg m' e' /\ (-1074 <= e')%Z /\
    (dist a b (val m' e') <= dist a b (val m e))%Z.
Proof.
  intros Hb Hm He Bm Ba. destruct (N.eq_dec a 0) as [->|Ha].
  - exists 0%N, 0%Z. split; [reflexivity|]. split; [lia|].
    unfold dist, val. change (Z.of_N 0) with 0%Z. rewrite !Z.mul_0_l, Z.mul_0_r. rewrite Z.sub_0_r. lia.
  - pose proof (rquo_nearest a b m e ltac:(lia) Hb Hm He) as D.
    rewrite round64_eq by auto.
    assert (-1074 <= rexp a b)%Z as He' by (unfold rexp; lia).
    pose proof (norm2_val (rquo a b) (rexp a b) He') as NV.
    pose proof (norm2_spec (rquo a b) (rexp a b)) as NS.
    destruct (norm2 (rquo a b) (rexp a b)) as [m' e'].
    destruct NV as [V1 [V2 V3]].
    destruct (N.eqb_spec m' 0) as [E|E].
    + exists 0%N, 0%Z. split; [reflexivity|]. split; [lia|].
      assert (rquo a b = 0%N) as Q by (destruct (N.eq_dec (rquo a b) 0); [auto|exfalso; apply V1; auto]).
      rewrite Q in D. exact D.
    + assert (rquo a b <> 0%N) as Q0 by (intros K; apply E, V3, K).
      destruct (NS Q0) as [_ [Le _]].
      destruct (N.leb_spec (2 ^ 1024) (rquo a b * pow2 (rexp a b))) as [Q|Q].
      * exfalso.
        assert (val 1 1024 <= val (rquo a b) (rexp a b))%Z as G.
        { pose proof (val_ratio (rquo a b) (rexp a b) He') as V. unfold float_num, float_den in V.
          pose proof (pow2_pos (- rexp a b)).
          assert (val 1 1024 = Z.of_N (2 ^ 1024) * K1074)%Z as -> by reflexivity.
          pose proof K1074_pos.
          destruct (Z.le_gt_cases 0 (rexp a b)) as [P|P].
          - rewrite (pow2_neg (- rexp a b)) in V by lia. nia.
          - (* q < 2^54 *)
            exfalso. rewrite (pow2_neg (rexp a b)) in Q by lia.
            assert (rquo a b <= 2 ^ 53)%N as B53.
            { pose proof (flog2_spec a b ltac:(lia) Hb) as [_ F2].
              unfold rquo. apply div_rne_le; [pose proof (pow2_pos (rexp a b)); nia|].
              assert (~ lge a b (rexp a b + 53)) as F3 by (intros K; apply F2; eapply lge_mono; [|exact K]; unfold rexp; lia).
              rewrite (lge_shift _ _ _ (Z.abs (rexp a b))) in F3 by (unfold rexp; lia).
              rewrite Z.abs_neq in F3 by lia.
              replace (rexp a b + 53 + - rexp a b)%Z with 53%Z in F3 by lia.
              rewrite (pow2_neg (rexp a b)) by lia. change (pow2 53) with (2 ^ 53)%N in F3. nia. }
            assert (2 ^ 53 < 2 ^ 1024)%N by (vm_compute; reflexivity). lia. }
        assert (4 * val 1 900 <= val 1 1024)%Z as G2 by (vm_compute; discriminate).
        assert (0 < val 1 900)%Z as G3 by (vm_compute; reflexivity).
        set (v9 := val 1 900) in *. set (v10 := val 1 1024) in *.
        set (v := val (rquo a b) (rexp a b)) in *.
        assert (0 <= val m e)%Z by (unfold val; apply Z.mul_nonneg_nonneg; [lia|apply Z.pow_nonneg; lia]).
        set (x := val m e) in *. unfold dist in D.
        assert (Z.of_N b * (4 * v9) <= Z.of_N b * v)%Z by (apply Z.mul_le_mono_nonneg_l; lia).
        assert (0 <= Z.of_N b * x)%Z by (apply Z.mul_nonneg_nonneg; lia).
        pose proof K1074_pos. set (k := (Z.of_N a * K1074)%Z) in *.
        assert (0 <= k)%Z by (unfold k; apply Z.mul_nonneg_nonneg; lia).
        assert (0 < Z.of_N b * v9)%Z by (apply Z.mul_pos_pos; lia).
        clearbody k v v9 v10 x. lia.
      * exists m', e'. split; [reflexivity|]. split; [lia|]. rewrite V2 by auto. exact D.
Qed.

Lemma float_den_pos e : (0 < float_den e)%N.
Proof. apply pow2_pos. Qed.
Lemma div_rne_tie a b : (0 < b)%N ->
  (2 * a = (2 * div_rne a b + 1) * b \/ 2 * a + b = 2 * div_rne a b * b)%N -> N.even (div_rne a b) = true.
Proof.
  intros Hb. unfold div_rne. pose proof (N.div_mod a b ltac:(lia)) as E.
  pose proof (N.mod_lt a b ltac:(lia)) as L.
  set (q := (a / b)%N) in *. set (r := (a mod b)%N) in *.
  destruct (N.compare_spec (2 * r) b) as [H|H|H]; [destruct (N.even q) eqn:Q; auto| |]; intros K.
  - rewrite N.even_add, Q. reflexivity.
  - exfalso. destruct K; nia.
  - exfalso. destruct K; nia.
Qed.
Lemma div_rne_unique a b q : (0 < b)%N ->
  (2 * a <= (2 * q + 1) * b)%N -> (2 * q * b <= 2 * a + b)%N ->
  ((2 * a = (2 * q + 1) * b \/ 2 * a + b = 2 * q * b)%N -> N.even q = true) ->
  div_rne a b = q.
Proof.
  intros Hb H1 H2 H3. destruct (div_rne_error a b Hb) as [E1 E2].
  pose proof (div_rne_tie a b Hb) as T. set (k := div_rne a b) in *.
  destruct (N.lt_trichotomy k q) as [L|[L|L]]; auto; exfalso.
  - assert (q = k + 1)%N by nia. subst q.
    assert (N.even k = true) by (apply T; left; nia).
    assert (N.even (k + 1) = true) by (apply H3; right; nia).
    rewrite N.even_add, H in H0. discriminate.
  - assert (k = q + 1)%N by nia. rewrite H in *.
    assert (N.even q = true) by (apply H3; left; nia).
    assert (N.even (q + 1) = true) by (apply T; right; nia).
    rewrite N.even_add, H0 in H4. discriminate.
Qed.

(** the value read back from the text *)
Definition reread (p : nat) (x : float) : float :=
  match x with
  | FFin neg m e => float_of_dec (DFin neg (fixed_q p m e) (- Z.of_nat p))
  | _ => x
  end.

Lemma reread_wf p x : wf_float x -> wf_float (reread p x).
Proof. destruct x; cbn [reread]; auto. intros _. apply float_of_dec_wf. Qed.

Lemma parse_float_fixed p x : parse_float (fixed_text p x) = Some (reread p x).
Proof.
  destruct x as [neg m e|neg|].
  - rewrite fixed_text_fin. destruct (fixed_ratio_props p neg (float_num m e) (float_den e)) as [H _].
    unfold parse_float. rewrite H. reflexivity.
  - destruct neg; reflexivity.
  - reflexivity.
Qed.
Lemma parse_float_fmt w p x : parse_float (fmt_f w p x) = Some (reread p x).
Proof.
  destruct (fmt_f_pad w p x) as [b [Hb ->]]. rewrite <- parse_float_fixed.
  unfold parse_float, parse_dec. rewrite strip_blank_app by auto. reflexivity.
Qed.

(** The main fact: what is read back is a finite float [y], with
    |y*10^p - q| <= |x*10^p - q| <= 1/2 where q is the printed integer. *)
Lemma reread_close p neg m e : wf_float (FFin neg m e) ->
  exists m' e', reread p (FFin neg m e) = FFin neg m' e' /\ (-1074 <= e')%Z /\
    (dist (fixed_q p m e) (10 ^ N.of_nat p) (val m' e') <= dist (fixed_q p m e) (10 ^ N.of_nat p) (val m e))%Z.
Proof.
  intros W. cbn [reread].
  set (q := fixed_q p m e). set (T := (10 ^ N.of_nat p)%N).
  assert (0 < T)%N as HT by (unfold T; pose proof (N.pow_nonzero 10 (N.of_nat p)); lia).
  assert (float_of_dec (DFin neg q (- Z.of_nat p)) = round64 neg q T) as FD.
  { cbn [float_of_dec]. rewrite pow10_neg by lia. rewrite N.mul_1_r.
    replace (- - Z.of_nat p)%Z with (Z.of_nat p) by lia. rewrite pow10_nat. reflexivity. }
  destruct (Z.le_gt_cases 0 e) as [P|P].
  - exists m, e. rewrite FD. split; [|split; [lia|lia]].
    rewrite <- (round64_exact neg m e W). apply round64_ratio; auto using float_den_pos.
    unfold q, fixed_q, float_den. rewrite (pow2_neg (- e)) by lia.
    rewrite <- (N.mul_1_r (float_num m e * 10 ^ N.of_nat p)), div_rne_exact by lia. fold T. lia.
  - destruct W as [[-> ->]|[Ho [Hm [He _]]]]; [lia|].
    rewrite FD.
    assert (0 <= val m e)%Z as V0 by (unfold val; apply Z.mul_nonneg_nonneg; [lia|apply Z.pow_nonneg; lia]).
    assert (val m e < 2 ^ 53 * K1074)%Z as V1.
    { unfold val. assert (K1074 = 2 ^ 1074)%Z as -> by reflexivity.
      assert (2 ^ (e + 1074) <= 2 ^ 1074)%Z by (apply Z.pow_le_mono_r; lia).
      assert (0 < 2 ^ (e + 1074))%Z by (apply Z.pow_pos_nonneg; lia).
      assert (Z.of_N m < 2 ^ 53)%Z by lia. nia. }
    assert (Z.of_N q * K1074 <= Z.of_N T * (val m e + K1074))%Z as Hq.
    { pose proof (div_rne_error (float_num m e * T) (float_den e) (float_den_pos e)) as [_ E2].
      fold T in q. fold (fixed_q p m e) in E2. change (div_rne (float_num m e * T) (float_den e)) with q in E2.
      pose proof (val_ratio m e He) as V. pose proof (float_den_pos e) as FP. pose proof K1074_pos.
      apply (Zmult_le_reg_r _ _ (2 * Z.of_N (float_den e))%Z); [lia|].
      replace (Z.of_N T * (val m e + K1074) * (2 * Z.of_N (float_den e)))%Z
        with (2 * Z.of_N T * (val m e * Z.of_N (float_den e)) + 2 * Z.of_N T * K1074 * Z.of_N (float_den e))%Z by ring.
      rewrite V.
      assert (2 * Z.of_N q * Z.of_N (float_den e) <= 2 * (Z.of_N (float_num m e) * Z.of_N T) + Z.of_N (float_den e))%Z as E3 by lia.
      assert (2 * Z.of_N q * Z.of_N (float_den e) * K1074 <= (2 * (Z.of_N (float_num m e) * Z.of_N T) + Z.of_N (float_den e)) * K1074)%Z as E4
        by (apply Z.mul_le_mono_nonneg_r; lia).
      assert (Z.of_N (float_den e) * K1074 <= 2 * Z.of_N T * K1074 * Z.of_N (float_den e))%Z by nia.
      nia. }
    assert (2 ^ 53 * K1074 + K1074 < val 1 900)%Z as V9 by (vm_compute; reflexivity).
    apply (round64_nearest neg q T m e HT Hm He).
    + apply Z.mul_lt_mono_pos_l; [lia|]. pose proof K1074_pos. lia.
    + eapply Z.le_lt_trans; [exact Hq|]. apply Z.mul_lt_mono_pos_l; lia.
Qed.

Lemma dist_half p m e : (-1074 <= e)%Z ->
  let q := fixed_q p m e in
  (2 * dist q (10 ^ N.of_nat p) (val m e) <= K1074)%Z /\
  ((2 * dist q (10 ^ N.of_nat p) (val m e) = K1074)%Z -> N.even q = true).
Proof.
  intros He q. set (T := (10 ^ N.of_nat p)%N).
  pose proof (float_den_pos e) as FP. pose proof K1074_pos as KP.
  pose proof (val_ratio m e He) as V.
  pose proof (div_rne_error (float_num m e * T) (float_den e) FP) as [E1 E2].
  pose proof (div_rne_tie (float_num m e * T) (float_den e) FP) as TT.
  change (div_rne (float_num m e * T) (float_den e)) with q in *.
  set (d := float_den e) in *. set (n := float_num m e) in *. set (v := val m e) in *.
  assert (Z.of_N d * dist q T v = Z.abs (Z.of_N n * Z.of_N T - Z.of_N q * Z.of_N d) * K1074)%Z as DE.
  { unfold dist. rewrite <- (Z.abs_eq (Z.of_N d)) at 1 by lia.
    rewrite <- (Z.abs_eq K1074) at 2 by lia. rewrite <- !Z.abs_mul. f_equal.
    transitivity (Z.of_N T * (v * Z.of_N d) - Z.of_N q * Z.of_N d * K1074)%Z; [ring|]. rewrite V. ring. }
  set (D := dist q T v) in *. clearbody D v.
  set (A := Z.abs (Z.of_N n * Z.of_N T - Z.of_N q * Z.of_N d)) in *.
  assert (2 * A <= Z.of_N d)%Z as AL by (unfold A; lia).
  assert (2 * A = Z.of_N d -> N.even q = true)%Z as AT by (unfold A; intros K; apply TT; lia).
  clearbody A. set (k := K1074) in *. clearbody k.
  split.
  - apply (Zmult_le_reg_r _ _ (Z.of_N d)); [lia|]. nia.
  - intros K. apply AT. apply (Z.mul_reg_r _ _ k); [lia|]. nia.
Qed.

Lemma fixed_q_of_dist p m e q : (-1074 <= e)%Z ->
  (2 * dist q (10 ^ N.of_nat p) (val m e) <= K1074)%Z ->
  ((2 * dist q (10 ^ N.of_nat p) (val m e) = K1074)%Z -> N.even q = true) ->
  fixed_q p m e = q.
Proof.
  intros He H1 H2. set (T := (10 ^ N.of_nat p)%N) in *.
  pose proof (float_den_pos e) as FP. pose proof K1074_pos as KP.
  pose proof (val_ratio m e He) as V. unfold fixed_q. fold T.
  set (d := float_den e) in *. set (n := float_num m e) in *. set (v := val m e) in *.
  assert (Z.of_N d * dist q T v = Z.abs (Z.of_N n * Z.of_N T - Z.of_N q * Z.of_N d) * K1074)%Z as DE.
  { unfold dist. rewrite <- (Z.abs_eq (Z.of_N d)) at 1 by lia.
    rewrite <- (Z.abs_eq K1074) at 2 by lia. rewrite <- !Z.abs_mul. f_equal.
    transitivity (Z.of_N T * (v * Z.of_N d) - Z.of_N q * Z.of_N d * K1074)%Z; [ring|]. rewrite V. ring. }
  set (D := dist q T v) in *. clearbody D v.
  set (A := Z.abs (Z.of_N n * Z.of_N T - Z.of_N q * Z.of_N d)) in *.
  set (k := K1074) in *. clearbody k.
  assert (2 * A <= Z.of_N d)%Z as AL.
  { apply (Zmult_le_reg_r _ _ k); [lia|]. nia. }
  assert (2 * A = Z.of_N d -> N.even q = true)%Z as AT.
  { intros K. apply H2. apply (Z.mul_reg_r _ _ (Z.of_N d)); [lia|]. nia. }
  apply div_rne_unique; auto; unfold A in *; try lia.
Qed.

(** Printing what was read back gives the same text. *)
Theorem fixed_text_reread p x : wf_float x -> fixed_text p (reread p x) = fixed_text p x.
Proof.
  destruct x as [neg m e| |]; cbn [reread]; auto. intros W.
  change (float_of_dec _) with (reread p (FFin neg m e)).
  destruct (reread_close p neg m e W) as [m' [e' [-> [He' D]]]].
  assert (-1074 <= e)%Z as He by (destruct W as [[_ ->]|[_ [_ [H _]]]]; lia).
  destruct (dist_half p m e He) as [D1 D2].
  rewrite !fixed_text_fin. unfold fixed_ratio. do 2 f_equal.
  change (fixed_q p m' e' = fixed_q p m e). apply fixed_q_of_dist; auto; [lia|].
  intros K. apply D2. lia.
Qed.
Lemma fmt_f_reread w p x : wf_float x -> fmt_f w p (reread p x) = fmt_f w p x.
Proof.
  intros W. pose proof (fixed_text_reread p x W) as H. unfold fixed_text, fmt_f, pad_left in *. cbn [Nat.sub repeat app] in H.
  rewrite H. reflexivity.
Qed.
Theorem reread_idem p x : wf_float x -> reread p (reread p x) = reread p x.
Proof.
  intros W. pose proof (parse_float_fixed p x) as A. pose proof (parse_float_fixed p (reread p x)) as B.
  rewrite fixed_text_reread in B by auto. congruence.
Qed.
Lemma reread_finite p x : wf_float x -> finite (reread p x) = finite x.
Proof.
  destruct x as [neg m e| |]; auto. intros W. destruct (reread_close p neg m e W) as [m' [e' [-> _]]]. reflexivity.
Qed.

(** A float read from a decimal with at most [p] fractional digits, below 2^52
    units of the last one, survives. *)
Definition fits (p : nat) (x : float) : Prop :=
  exists neg n, (n < 2 ^ 52)%N /\ x = float_of_dec (DFin neg n (- Z.of_nat p)).

Lemma pow_Z_N b n : Z.of_N (b ^ N.of_nat n) = (Z.of_N b ^ Z.of_nat n)%Z.
Proof. rewrite N2Z.inj_pow, nat_N_Z. reflexivity. Qed.

Lemma rquo_error a b : (0 < a)%N -> (0 < b)%N ->
  (2 * dist a b (val (rquo a b) (rexp a b)) <= Z.of_N b * val 1 (rexp a b))%Z.
Proof.
  intros Ha Hb. set (e := rexp a b). assert (-1074 <= e)%Z as He by (unfold e, rexp; lia).
  pose proof (pow2_pos e) as P2. pose proof (pow2_pos (-e)) as P2'. pose proof K1074_pos as KP.
  pose proof (div_rne_error (a * pow2 (- e)) (b * pow2 e) ltac:(nia)) as [D1 D2].
  change (div_rne (a * pow2 (- e)) (b * pow2 e)) with (rquo a b) in D1, D2.
  pose proof (val_ratio 1 e He) as V1. pose proof (val_ratio (rquo a b) e He) as Vq.
  unfold float_num, float_den in V1, Vq. rewrite N.mul_1_l in V1. rewrite N2Z.inj_mul in Vq.
  set (q := rquo a b) in *. set (s := pow2 (- e)) in *. set (t := pow2 e) in *.
  set (v1 := val 1 e) in *. set (vq := val q e) in *. unfold dist.
  set (k := K1074) in *. clearbody k vq v1 q s t.
  apply (Zmult_le_reg_r _ _ (Z.of_N s)); [lia|].
  rewrite <- (Z.abs_eq (Z.of_N s)) at 1 by lia. rewrite <- Z.mul_assoc, <- Z.abs_mul.
  replace ((Z.of_N b * vq - Z.of_N a * k) * Z.of_N s)%Z with (Z.of_N b * (vq * Z.of_N s) - Z.of_N a * k * Z.of_N s)%Z by ring.
  rewrite Vq. replace (Z.of_N b * v1 * Z.of_N s)%Z with (Z.of_N b * (v1 * Z.of_N s))%Z by ring. rewrite V1.
  replace (Z.of_N b * (Z.of_N q * Z.of_N t * k) - Z.of_N a * k * Z.of_N s)%Z
    with ((Z.of_N q * (Z.of_N b * Z.of_N t) - Z.of_N a * Z.of_N s) * k)%Z by ring.
  rewrite Z.abs_mul, (Z.abs_eq k) by lia.
  assert (2 * Z.abs (Z.of_N q * (Z.of_N b * Z.of_N t) - Z.of_N a * Z.of_N s) <= Z.of_N b * Z.of_N t)%Z as A by lia.
  assert (2 * Z.abs (Z.of_N q * (Z.of_N b * Z.of_N t) - Z.of_N a * Z.of_N s) * k <= Z.of_N b * Z.of_N t * k)%Z by (apply Z.mul_le_mono_nonneg_r; lia).
  lia.
Qed.

Lemma flog2_scaled a b : (0 < a)%N -> (0 < b)%N -> (-1074 < rexp a b)%Z ->
  (Z.of_N b * (2 ^ 52 * val 1 (rexp a b)) <= Z.of_N a * K1074)%Z.
Proof.
  intros Ha Hb H. destruct (flog2_spec a b Ha Hb) as [F _].
  assert (rexp a b = flog2 a b - 52)%Z as RE by (unfold rexp in *; lia).
  pose proof (lge_scaled a b (flog2 a b) ltac:(lia) F) as L.
  assert (2 ^ 52 * val 1 (rexp a b) = val 1 (flog2 a b))%Z as ->; auto.
  unfold val. replace (flog2 a b + 1074)%Z with (52 + (rexp a b + 1074))%Z by lia.
  rewrite (Z.pow_add_r 2 52) by lia. ring.
Qed.

Theorem reread_fits p x : (p <= 300) -> fits p x -> finite x = true -> reread p x = x.
Proof.
  intros Hp [neg [n [Hn ->]]] Hfin.
  assert (float_of_dec (DFin neg n (- Z.of_nat p)) = round64 neg n (10 ^ N.of_nat p)) as FD.
  { cbn [float_of_dec]. rewrite pow10_neg by lia. rewrite N.mul_1_r.
    replace (- - Z.of_nat p)%Z with (Z.of_nat p) by lia. rewrite pow10_nat. reflexivity. }
  set (T := (10 ^ N.of_nat p)%N) in *.
  assert (0 < T)%N as HT by (unfold T; pose proof (N.pow_nonzero 10 (N.of_nat p)); lia).
  assert (T < 2 ^ 1000)%N as HT2.
  { apply N.le_lt_trans with (10 ^ 300)%N; [apply N.pow_le_mono_r; lia|vm_compute; reflexivity]. }
  assert (forall m e, round64 neg n T = FFin neg m e -> (-1074 <= e)%Z /\ (2 * dist n T (val m e) < K1074)%Z) as A.
  { intros m e R. destruct (N.eq_dec n 0) as [->|Hn0].
    - inversion R; subst. split; [lia|]. unfold dist, val. cbn [Z.of_N].
      rewrite !Z.mul_0_l, Z.mul_0_r. pose proof K1074_pos. cbn. lia.
    - rewrite round64_eq in R by auto.
      assert (-1074 <= rexp n T)%Z as He by (unfold rexp; lia).
      pose proof (rquo_error n T ltac:(lia) HT) as RErr.
      assert (2 * dist n T (val (rquo n T) (rexp n T)) < K1074)%Z as B.
      { eapply Z.le_lt_trans; [exact RErr|].
        destruct (Z.eq_dec (rexp n T) (-1074)) as [E|E].
        - rewrite E. change (val 1 (-1074)) with 1%Z.
          assert (Z.of_N (2 ^ 1000) < K1074)%Z by (vm_compute; reflexivity). lia.
        - pose proof (flog2_scaled n T ltac:(lia) HT ltac:(lia)) as F.
          pose proof K1074_pos. set (w := (Z.of_N T * val 1 (rexp n T))%Z) in *.
          assert (2 ^ 52 * w <= Z.of_N n * K1074)%Z by (unfold w; lia).
          assert (Z.of_N n * K1074 < 2 ^ 52 * K1074)%Z by (apply Z.mul_lt_mono_pos_r; lia). lia. }
      pose proof (norm2_val (rquo n T) (rexp n T) He) as NV.
      pose proof (norm2_spec (rquo n T) (rexp n T)) as NS.
      destruct (norm2 (rquo n T) (rexp n T)) as [m' e']. destruct NV as [V1 [V2 V3]].
      destruct (N.eqb_spec m' 0) as [E|E].
      + inversion R; subst m e. split; [lia|].
        assert (rquo n T = 0%N) as Q by (destruct (N.eq_dec (rquo n T) 0); [auto|exfalso; apply V1; auto]).
        rewrite Q in B. exact B.
      + destruct (2 ^ 1024 <=? _)%N; [discriminate|]. inversion R; subst m' e'.
        assert (rquo n T <> 0%N) as Q0 by (intros K; apply E, V3, K).
        destruct (NS Q0) as [_ [Le _]]. split; [lia|]. rewrite V2 by auto. exact B. }
  assert (exists m e, round64 neg n T = FFin neg m e) as [m [e R]].
  { rewrite FD in Hfin. revert Hfin. unfold round64. destruct (n =? 0)%N; eauto.
    destruct (norm2 _ _). destruct (_ =? 0)%N; eauto. destruct (_ <=? _)%N; eauto. discriminate. }
  destruct (A m e R) as [He D].
  rewrite FD, R at 1. cbn [reread].
  rewrite (fixed_q_of_dist p m e n He); [reflexivity| |]; fold T; [lia|].
  intros K. lia.
Qed.

Lemma fits_finite p x : p <= 300 -> fits p x -> finite x = true.
Proof.
  intros Hp [neg [n [Hn ->]]].
  assert (float_of_dec (DFin neg n (- Z.of_nat p)) = round64 neg n (10 ^ N.of_nat p)) as FD.
  { cbn [float_of_dec]. rewrite pow10_neg by lia. rewrite N.mul_1_r.
    replace (- - Z.of_nat p)%Z with (Z.of_nat p) by lia. rewrite pow10_nat. reflexivity. }
  rewrite FD. set (T := (10 ^ N.of_nat p)%N).
  assert (0 < T)%N as HT by (unfold T; pose proof (N.pow_nonzero 10 (N.of_nat p)); lia).
  destruct (round64_nearest neg n T 0 0 HT) as [m' [e' [-> _]]]; auto; try lia.
  - unfold val at 1. cbn [Z.of_N]. rewrite Z.mul_0_l, Z.mul_0_r. apply Z.mul_pos_pos; [lia|]. vm_compute. reflexivity.
  - assert (2 ^ 52 * K1074 < val 1 900)%Z by (vm_compute; reflexivity).
    pose proof K1074_pos.
    assert (Z.of_N n * K1074 < 2 ^ 52 * K1074)%Z by (apply Z.mul_lt_mono_pos_r; lia).
    assert (val 1 900 <= Z.of_N T * val 1 900)%Z by (assert (0 < val 1 900)%Z by (vm_compute; reflexivity); set (v9 := val 1 900) in *; clearbody v9; nia). lia.
Qed.

(** ** The exact rational value of a float *)
Definition fval (x : float) : Q :=
  match x with
  | FFin neg m e => ((if neg then -1 else 1) * inject_Z (Z.of_N m) * (2 # 1) ^ e)%Q
  | _ => 0%Q
  end.

Lemma val_Q m e : (-1074 <= e)%Z ->
  (inject_Z (val m e) == inject_Z (Z.of_N m) * (2 # 1) ^ e * inject_Z K1074)%Q.
Proof.
  intros He. unfold val. rewrite inject_Z_mult.
  assert (inject_Z (2 ^ (e + 1074)) == (2 # 1) ^ e * inject_Z K1074)%Q as ->; [|ring].
  assert (K1074 = 2 ^ 1074)%Z as -> by reflexivity.
  rewrite !Zpower_Qpower by lia.
  change (inject_Z 2) with (2 # 1)%Q. rewrite Qpower_plus by discriminate. reflexivity.
Qed.

(** at most one unit of the last printed digit *)
Theorem reread_error p x : wf_float x -> finite x = true ->
  (Qabs (fval (reread p x) - fval x) <= / inject_Z (10 ^ Z.of_nat p))%Q.
Proof.
  destruct x as [neg m e| |]; try discriminate. intros W _.
  destruct (reread_close p neg m e W) as [m' [e' [-> [He' D]]]].
  assert (-1074 <= e)%Z as He by (destruct W as [[_ ->]|[_ [_ [H _]]]]; lia).
  destruct (dist_half p m e He) as [D1 _].
  assert (Z.of_N (10 ^ N.of_nat p) * Z.abs (val m' e' - val m e) <= K1074)%Z as G.
  { unfold dist in *. set (T := Z.of_N (10 ^ N.of_nat p)) in *.
    rewrite <- (Z.abs_eq T) at 1 by lia. rewrite <- Z.abs_mul. lia. }
  rewrite pow_Z_N in G. change (Z.of_N 10) with 10%Z in G.
  assert (0 < 10 ^ Z.of_nat p)%Z as TP by (apply Z.pow_pos_nonneg; lia).
  set (T := (10 ^ Z.of_nat p)%Z) in *. pose proof K1074_pos as KP.
  assert (Qabs (fval (FFin neg m' e') - fval (FFin neg m e)) ==
          Qabs (inject_Z (val m' e' - val m e)) / inject_Z K1074)%Q as ->.
  { assert (0 < inject_Z K1074)%Q as KQ by (unfold Qlt; cbn; lia).
    assert (fval (FFin neg m' e') - fval (FFin neg m e) ==
      (if neg then -1 else 1) * (inject_Z (val m' e' - val m e) / inject_Z K1074))%Q as E.
    { unfold Z.sub. rewrite inject_Z_plus, inject_Z_opp, !val_Q by auto. cbn [fval].
      assert (~ inject_Z K1074 == 0)%Q by (intros K; rewrite K in KQ; discriminate). field. auto. }
    rewrite E, Qabs_Qmult. unfold Qdiv. rewrite Qabs_Qmult.
    rewrite (Qabs_pos (/ inject_Z K1074)) by (apply Qlt_le_weak, Qinv_lt_0_compat, KQ).
    destruct neg; [change (Qabs (-1)) with 1%Q|change (Qabs 1) with 1%Q]; ring. }
  apply Qle_shift_div_r; [unfold Qlt; cbn; lia|].
  assert (0 < inject_Z T)%Q as TQ by (unfold Qlt; cbn; lia).
  rewrite <- (Qmult_le_l _ _ (inject_Z T)) by auto.
  rewrite Qmult_assoc, Qmult_inv_r by (intros K; rewrite K in TQ; discriminate).
  rewrite Qmult_1_l. change (Qabs (inject_Z (val m' e' - val m e))) with (inject_Z (Z.abs (val m' e' - val m e))).
  rewrite <- inject_Z_mult, <- Zle_Qle. exact G.
Qed.

(** exact value of a decimal literal *)
Definition dval (d : dec) : Q :=
  match d with
  | DFin neg n e => ((if neg then -1 else 1) * inject_Z (Z.of_N n) * (10 # 1) ^ e)%Q
  | _ => 0%Q
  end.
(** the decimal written is within half a unit of the last digit *)
Theorem text_error p x : wf_float x -> finite x = true ->
  exists d, parse_dec (fixed_text p x) = Some d /\
  (Qabs (dval d - fval x) <= / (2 * inject_Z (10 ^ Z.of_nat p)))%Q.
Proof.
  destruct x as [neg m e| |]; try discriminate. intros W _.
  assert (-1074 <= e)%Z as He by (destruct W as [[_ ->]|[_ [_ [H _]]]]; lia).
  destruct (dist_half p m e He) as [D1 _].
  eexists. split.
  { rewrite fixed_text_fin. apply (proj1 (fixed_ratio_props p neg (float_num m e) (float_den e))). }
  fold (fixed_q p m e). set (q := fixed_q p m e) in *.
  unfold dist in D1. rewrite pow_Z_N in D1. change (Z.of_N 10) with 10%Z in D1.
  assert (0 < 10 ^ Z.of_nat p)%Z as TP by (apply Z.pow_pos_nonneg; lia).
  set (T := (10 ^ Z.of_nat p)%Z) in *. pose proof K1074_pos as KP.
  assert (0 < inject_Z K1074)%Q as KQ by (unfold Qlt; cbn; lia).
  assert (0 < inject_Z T)%Q as TQ by (unfold Qlt; cbn; lia).
  assert (~ inject_Z K1074 == 0)%Q as KN by (intros K; rewrite K in KQ; discriminate).
  assert (~ inject_Z T == 0)%Q as TN by (intros K; rewrite K in TQ; discriminate).
  assert ((10 # 1) ^ (- Z.of_nat p) == / inject_Z T)%Q as ET.
  { rewrite Qpower_opp. unfold T. rewrite Zpower_Qpower by lia. reflexivity. }
  assert (Qabs (dval (DFin neg q (- Z.of_nat p)) - fval (FFin neg m e)) ==
          Qabs (inject_Z (T * val m e - Z.of_N q * K1074)) / (inject_Z T * inject_Z K1074))%Q as ->.
  { assert (dval (DFin neg q (- Z.of_nat p)) - fval (FFin neg m e) ==
      (if neg then 1 else -1) * (inject_Z (T * val m e - Z.of_N q * K1074) / (inject_Z T * inject_Z K1074)))%Q as E.
    { unfold Z.sub. rewrite inject_Z_plus, inject_Z_opp, !inject_Z_mult, !val_Q by auto. cbn [fval dval]. rewrite ET.
      destruct neg; field; auto. }
    rewrite E, Qabs_Qmult. unfold Qdiv. rewrite Qabs_Qmult.
    rewrite (Qabs_pos (/ (inject_Z T * inject_Z K1074))).
    2: { apply Qlt_le_weak, Qinv_lt_0_compat. rewrite <- (Qmult_0_l (inject_Z K1074)). apply Qmult_lt_compat_r; auto. }
    destruct neg; [change (Qabs 1) with 1%Q|change (Qabs (-1)) with 1%Q]; ring. }
  assert (0 < inject_Z T * inject_Z K1074)%Q as TKQ.
  { rewrite <- (Qmult_0_l (inject_Z K1074)). apply Qmult_lt_compat_r; auto. }
  apply Qle_shift_div_r; auto.
  assert (/ (2 * inject_Z T) * (inject_Z T * inject_Z K1074) == inject_Z K1074 / 2)%Q as -> by (field; auto).
  apply Qle_shift_div_l; [reflexivity|].
  change 2%Q with (inject_Z 2).
  change (Qabs (inject_Z (T * val m e - Z.of_N q * K1074))) with (inject_Z (Z.abs (T * val m e - Z.of_N q * K1074))).
  rewrite <- inject_Z_mult, <- Zle_Qle. lia.
Qed.
