(** Lemmas about numbers: reading back what str()/repr()/format() print. *)
From Coq Require Import Ascii String List NArith ZArith Bool Lia Arith.
From Coq Require Import ZifyBool ZifyNat ZifyN.
From Verif Require Import PyBase PyStrLemmas PyNum.
Import ListNotations.
Local Open Scope list_scope.
Local Open Scope bool_scope.

Arguments N.add : simpl never.
Arguments N.mul : simpl never.
Arguments N.sub : simpl never.
Arguments N.div : simpl never.
Arguments N.modulo : simpl never.
Arguments N.pow : simpl never.
Arguments N.leb : simpl never.
Arguments N.ltb : simpl never.
Arguments N.eqb : simpl never.
Arguments Z.add : simpl never.
Arguments Z.sub : simpl never.
Arguments Z.mul : simpl never.
Arguments Z.opp : simpl never.
Arguments Z.leb : simpl never.
Arguments Z.ltb : simpl never.
Arguments digits_of : simpl never.
Arguments digits_val : simpl never.
Arguments pow2 : simpl never.
Arguments pow10 : simpl never.
Arguments round64 : simpl never.

(** ** Digits *)
Definition alldigits (l : str) : bool := forallb is_digit l.

Lemma code_chr n : (n < 256)%N -> code (chr n) = n.
Proof. apply N_ascii_embedding. Qed.

Lemma digit_char_digit n : (n < 10)%N -> is_digit (digit_char n) = true.
Proof.
  intros H. unfold is_digit, digit_char. rewrite code_chr by lia.
  apply andb_true_iff. split; apply N.leb_le; lia.
Qed.
Lemma digit_val_char n : (n < 10)%N -> digit_val (digit_char n) = n.
Proof. intros H. unfold digit_val, digit_char. rewrite code_chr by lia. lia. Qed.

Lemma digits_val_snoc l c : digits_val (l ++ [c]) = (10 * digits_val l + digit_val c)%N.
Proof. unfold digits_val. rewrite fold_left_app. reflexivity. Qed.

Lemma digits_val_app a b :
  digits_val (a ++ b) = (digits_val a * 10 ^ N.of_nat (length b) + digits_val b)%N.
Proof.
  induction b as [|c b IH] using rev_ind.
  - rewrite app_nil_r. cbn. change (10 ^ 0)%N with 1%N. change (digits_val []) with 0%N. lia.
  - rewrite app_assoc, !digits_val_snoc, IH, app_length. cbn [length].
    replace (N.of_nat (length b + 1)) with (N.succ (N.of_nat (length b))) by lia.
    rewrite N.pow_succ_r'. lia.
Qed.
Lemma digits_val_zeros n : digits_val (zeros n) = 0%N.
Proof.
  unfold zeros. induction n as [|n IH]; auto.
Qed.
Lemma zeros_length n : length (zeros n) = n.
Proof. apply repeat_length. Qed.
Lemma zeros_digits n : alldigits (zeros n) = true.
Proof. unfold alldigits, zeros. induction n; cbn; auto. Qed.

Lemma digits_fuel_val f n : (n < 2 ^ N.of_nat f)%N -> digits_val (digits_fuel (S f) n) = n.
Proof.
  revert n; induction f as [|f IH]; intros n Hn.
  - cbn in Hn. assert (n = 0)%N by (change (2 ^ 0)%N with 1%N in Hn; lia). subst. reflexivity.
  - remember (S f) as f1 eqn:Ef. cbn [digits_fuel]. destruct (N.ltb_spec n 10) as [H|H].
    + unfold digits_val. cbn [fold_left]. rewrite digit_val_char by auto. lia.
    + rewrite digits_val_snoc. subst f1. rewrite IH.
      * rewrite digit_val_char by (apply N.mod_lt; lia). pose proof (N.div_mod n 10). lia.
      * apply N.div_lt_upper_bound; [lia|].
        replace (N.of_nat (S f)) with (N.succ (N.of_nat f)) in Hn by lia.
        rewrite N.pow_succ_r' in Hn. lia.
Qed.
Lemma digits_fuel_digits f n : alldigits (digits_fuel f n) = true.
Proof.
  revert n; induction f as [|f IH]; intros n; auto. cbn [digits_fuel].
  destruct (N.ltb_spec n 10) as [H|H].
  - cbn. rewrite digit_char_digit; auto.
  - unfold alldigits. rewrite forallb_app. fold (alldigits (digits_fuel f (n / 10))).
    rewrite IH. cbn. rewrite digit_char_digit; auto. apply N.mod_lt; lia.
Qed.
Lemma digits_fuel_ne f n : digits_fuel (S f) n <> [].
Proof.
  cbn. destruct (n <? 10)%N; [congruence|]. intros E. apply app_eq_nil in E as [_ E]. discriminate.
Qed.
Lemma digits_of_val n : digits_val (digits_of n) = n.
Proof.
  unfold digits_of. apply digits_fuel_val. rewrite N2Nat.id. apply N.size_gt.
Qed.
Lemma digits_of_digits n : alldigits (digits_of n) = true.
Proof. apply digits_fuel_digits. Qed.
Lemma digits_of_ne n : digits_of n <> [].
Proof. apply digits_fuel_ne. Qed.

(** class membership of digit characters *)
Lemma digit_sweep (P : ascii -> bool) :
  forallb (fun c => implb (is_digit c) (P c)) all_ascii = true -> forall c, is_digit c = true -> P c = true.
Proof.
  intros H c Hc. pose proof (forall_ascii _ H c) as K. cbv beta in K. rewrite Hc in K. exact K.
Qed.
Lemma alldigits_all (P : ascii -> bool) l :
  forallb (fun c => implb (is_digit c) (P c)) all_ascii = true -> alldigits l = true -> forallb P l = true.
Proof.
  intros H. unfold alldigits. rewrite !forallb_forall. intros Hl x Hx.
  apply (digit_sweep P H). auto.
Qed.
Lemma alldigits_nospace l : alldigits l = true -> nospace l = true.
Proof. apply alldigits_all. vm_compute. reflexivity. Qed.

(** ** Scanning *)
Definition nohead_digit (l : str) : bool := match l with [] => true | c :: _ => negb (is_digit c) end.
Lemma span_digits_app a r :
  alldigits a = true -> nohead_digit r = true -> span_digits (a ++ r) = (a, r).
Proof.
  intros Ha Hr. induction a as [|c a IH].
  - cbn. destruct r as [|x r]; auto. cbn in *. destruct (is_digit x); auto. discriminate.
  - cbn in *. apply andb_true_iff in Ha as [H1 H2]. rewrite H1, IH; auto.
Qed.
Lemma span_digits_all a : alldigits a = true -> span_digits a = (a, []).
Proof. intros H. rewrite <- (app_nil_r a) at 1. apply span_digits_app; auto. Qed.

Lemma strip_us_none b l : nochar "_"%char l = true -> strip_us b l = Some l.
Proof.
  revert b; induction l as [|c r IH]; intros b; auto. cbn [nochar forallb]. intros H.
  apply andb_true_iff in H as [H1 H2]. apply negb_true_iff in H1.
  cbn. rewrite H1, IH; auto.
Qed.

Lemma take_sign_digit d : match d with [] => true | c :: _ => is_digit c || aeqb c "."%char end = true ->
  forall neg, take_sign (sign_str neg ++ d) = (neg, d).
Proof.
  intros Hd [|]; cbn; auto. destruct d as [|c d]; auto.
  unfold take_sign.
  assert (aeqb c "-"%char = false /\ aeqb c "+"%char = false) as [-> ->]; auto.
  pose proof (forall_ascii (fun c => implb (is_digit c || aeqb c "."%char) (negb (aeqb c "-"%char) && negb (aeqb c "+"%char))) eq_refl c) as K.
  cbv beta in K. rewrite Hd in K. cbn [implb] in K. apply andb_true_iff in K as [K1 K2].
  apply negb_true_iff in K1, K2. auto.
Qed.

Definition numeric_char (c : ascii) : bool :=
  is_digit c || aeqb c "."%char || aeqb c "-"%char || aeqb c "+"%char || aeqb c "e"%char.
Lemma numeric_sweep (P : ascii -> bool) l :
  forallb (fun c => implb (numeric_char c) (P c)) all_ascii = true ->
  forallb numeric_char l = true -> forallb P l = true.
Proof.
  intros H. rewrite !forallb_forall. intros Hl x Hx.
  pose proof (forall_ascii _ H x) as K. cbv beta in K. rewrite (Hl x Hx) in K. exact K.
Qed.
Lemma numeric_nospace l : forallb numeric_char l = true -> nospace l = true.
Proof. apply numeric_sweep. vm_compute. reflexivity. Qed.
Lemma numeric_nochar d l : numeric_char d = false -> forallb numeric_char l = true -> nochar d l = true.
Proof.
  intros Hd. unfold nochar. rewrite !forallb_forall. intros Hl x Hx.
  destruct (aeqb x d) eqn:E; auto. apply aeqb_eq in E. subst. rewrite (Hl _ Hx) in Hd. discriminate.
Qed.
Lemma digits_numeric l : alldigits l = true -> forallb numeric_char l = true.
Proof. apply alldigits_all. vm_compute. reflexivity. Qed.
Lemma sign_numeric neg : forallb numeric_char (sign_str neg) = true.
Proof. destruct neg; reflexivity. Qed.

(** ** int *)
Definition zdigits (z : Z) : str := digits_of (Z.abs_N z).
Lemma str_of_Z_sign z : str_of_Z z = sign_str (z <? 0)%Z ++ zdigits z.
Proof. destruct z; reflexivity. Qed.
Lemma str_of_Z_numeric z : forallb numeric_char (str_of_Z z) = true.
Proof.
  rewrite str_of_Z_sign, forallb_app, sign_numeric. cbn [andb].
  apply digits_numeric, digits_of_digits.
Qed.
Lemma str_of_Z_ne z : str_of_Z z <> [].
Proof.
  rewrite str_of_Z_sign. intros E. apply app_eq_nil in E as [_ E]. eapply digits_of_ne; eauto.
Qed.
Lemma str_of_Z_token z : is_token (str_of_Z z) = true.
Proof. apply is_token_intro; [apply str_of_Z_ne|apply numeric_nospace, str_of_Z_numeric]. Qed.

Lemma zsigned_abs z : zsigned (z <? 0)%Z (Z.abs_N z) = z.
Proof. unfold zsigned. destruct (Z.ltb_spec z 0); lia. Qed.

Lemma alldigits_headdot d : alldigits d = true ->
  match d with [] => true | c :: _ => is_digit c || aeqb c "."%char end = true.
Proof. destruct d; auto. cbn. intros H. apply andb_true_iff in H as [-> _]. reflexivity. Qed.

Lemma parse_int_core neg ds :
  ds <> [] -> alldigits ds = true ->
  parse_int (sign_str neg ++ ds) = Some (zsigned neg (digits_val ds)).
Proof.
  intros Hne Hd. unfold parse_int.
  assert (forallb numeric_char (sign_str neg ++ ds) = true) as Hn
    by (rewrite forallb_app, sign_numeric; apply digits_numeric; auto).
  rewrite strip_nospace by (apply numeric_nospace; auto).
  rewrite strip_us_none by (apply numeric_nochar; auto).
  rewrite take_sign_digit by (apply alldigits_headdot; auto).
  rewrite span_digits_all by auto. destruct ds; [congruence|]. reflexivity.
Qed.
Lemma parse_int_str z : parse_int (str_of_Z z) = Some z.
Proof.
  rewrite str_of_Z_sign, parse_int_core; [|apply digits_of_ne|apply digits_of_digits].
  unfold zdigits. rewrite digits_of_val, zsigned_abs. reflexivity.
Qed.
Lemma parse_int_fmt w z : parse_int (fmt_d w z) = Some z.
Proof.
  unfold fmt_d, pad_left, parse_int. rewrite strip_blank_app.
  - apply parse_int_str.
  - clear. unfold blank. induction (w - length (str_of_Z z)); cbn; auto.
Qed.

(** ** Decimal literals *)
Lemma head_not_special d :
  match d with [] => False | c :: _ => is_digit c || aeqb c "."%char = true end ->
  seqb (lower d) (lit "inf") = false /\ seqb (lower d) (lit "infinity") = false /\ seqb (lower d) (lit "nan") = false.
Proof.
  destruct d as [|c d]; [tauto|]. intros H.
  pose proof (forall_ascii (fun c => implb (is_digit c || aeqb c "."%char)
      (negb (aeqb (lower1 c) "i"%char) && negb (aeqb (lower1 c) "n"%char))) eq_refl c) as K.
  cbv beta in K. rewrite H in K. cbn [implb] in K. apply andb_true_iff in K as [K1 K2].
  apply negb_true_iff in K1, K2. cbn. rewrite K1, K2. auto.
Qed.

(** optional pieces of a literal *)
Definition frac_str (o : option str) : str := match o with None => [] | Some fp => "."%char :: fp end.
Definition frac_digits (o : option str) : str := match o with None => [] | Some fp => fp end.
Definition expo_str (o : option (bool * str)) : str :=
  match o with None => [] | Some (neg, ds) => "e"%char :: (if neg then "-"%char else "+"%char) :: ds end.
Definition expo_val (o : option (bool * str)) : Z :=
  match o with None => 0%Z | Some (neg, ds) => zsigned neg (digits_val ds) end.
Definition expo_ok (o : option (bool * str)) : bool :=
  match o with None => true | Some (_, ds) => alldigits ds && match ds with [] => false | _ => true end end.

Lemma parse_exp_expo o : expo_ok o = true -> parse_exp (expo_str o) = Some (expo_val o).
Proof.
  destruct o as [[neg ds]|]; auto. cbn [expo_ok expo_str expo_val].
  intros H. apply andb_true_iff in H as [H1 H2].
  unfold parse_exp. change (aeqb "e" "e" || aeqb "e" "E") with true. cbv iota.
  assert (take_sign ((if neg then "-" else "+")%char :: ds) = (neg, ds)) as -> by (destruct neg; reflexivity).
  rewrite span_digits_all by auto. destruct ds; [discriminate|]. reflexivity.
Qed.
Lemma expo_nohead o : nohead_digit (expo_str o) = true.
Proof. destruct o as [[neg ds]|]; auto. Qed.
Lemma expo_nodot o : match expo_str o with c :: _ => aeqb c "."%char | [] => false end = false.
Proof. destruct o as [[neg ds]|]; auto. Qed.

Lemma parse_unsigned_lit neg ip ofp oe :
  alldigits ip = true -> alldigits (frac_digits ofp) = true -> expo_ok oe = true ->
  ip ++ frac_digits ofp <> [] ->
  parse_unsigned neg (ip ++ frac_str ofp ++ expo_str oe) =
  Some (DFin neg (digits_val (ip ++ frac_digits ofp)) (expo_val oe - Z.of_nat (length (frac_digits ofp)))).
Proof.
  intros Hi Hf He Hne. unfold parse_unsigned.
  assert (match ip ++ frac_str ofp ++ expo_str oe with [] => False
          | c :: _ => is_digit c || aeqb c "."%char = true end) as Hhead.
  { destruct ip as [|c ip].
    - destruct ofp as [fp|]; [reflexivity|]. cbn in Hne. congruence.
    - cbn in *. apply andb_true_iff in Hi as [-> _]. reflexivity. }
  destruct (head_not_special _ Hhead) as [-> [-> ->]]. cbn [orb].
  assert (span_digits (ip ++ frac_str ofp ++ expo_str oe) = (ip, frac_str ofp ++ expo_str oe)) as ->.
  { apply span_digits_app; auto. destruct ofp; [reflexivity|]. apply expo_nohead. }
  destruct ofp as [fp|]; cbn [frac_str frac_digits app] in *.
  - change (aeqb "." ".") with true. cbv iota.
    rewrite span_digits_app by (auto using expo_nohead).
    destruct (ip ++ fp) as [|x l] eqn:E; [congruence|]. rewrite <- E.
    rewrite parse_exp_expo by auto. reflexivity.
  - assert ((match expo_str oe with
             | [] => ([], [])
             | c :: r => if aeqb c "."%char then span_digits r else ([], expo_str oe)
             end) = ([], expo_str oe)) as ->.
    { pose proof (expo_nodot oe). destruct (expo_str oe); auto. rewrite H. reflexivity. }
    destruct (ip ++ []) as [|x l] eqn:E; [congruence|].
    rewrite parse_exp_expo by auto. reflexivity.
Qed.

Lemma expo_numeric oe : expo_ok oe = true -> forallb numeric_char (expo_str oe) = true.
Proof.
  destruct oe as [[n ds]|]; auto. cbn. intros H. apply andb_true_iff in H as [H _].
  destruct n; cbn; apply digits_numeric; auto.
Qed.
Lemma frac_numeric o : alldigits (frac_digits o) = true -> forallb numeric_char (frac_str o) = true.
Proof. destruct o; auto. cbn. apply digits_numeric. Qed.
Lemma lit_numeric neg ip ofp oe :
  alldigits ip = true -> alldigits (frac_digits ofp) = true -> expo_ok oe = true ->
  forallb numeric_char (sign_str neg ++ ip ++ frac_str ofp ++ expo_str oe) = true.
Proof.
  intros. rewrite !forallb_app, sign_numeric, digits_numeric, frac_numeric, expo_numeric; auto.
Qed.

Lemma parse_dec_lit neg ip ofp oe :
  alldigits ip = true -> alldigits (frac_digits ofp) = true -> expo_ok oe = true ->
  ip ++ frac_digits ofp <> [] ->
  parse_dec (sign_str neg ++ ip ++ frac_str ofp ++ expo_str oe) =
  Some (DFin neg (digits_val (ip ++ frac_digits ofp)) (expo_val oe - Z.of_nat (length (frac_digits ofp)))).
Proof.
  intros Hi Hf He Hne. unfold parse_dec.
  pose proof (lit_numeric neg ip ofp oe Hi Hf He) as Hn.
  rewrite strip_nospace by (apply numeric_nospace; auto).
  rewrite strip_us_none by (apply numeric_nochar; auto).
  rewrite take_sign_digit.
  - apply parse_unsigned_lit; auto.
  - destruct ip as [|c ip].
    + destruct ofp as [fp|]; [reflexivity|]. cbn in Hne. congruence.
    + cbn in *. apply andb_true_iff in Hi as [-> _]. reflexivity.
Qed.

Lemma parse_dec_str_of_Z z : parse_dec (str_of_Z z) = Some (DFin (z <? 0)%Z (Z.abs_N z) 0).
Proof.
  rewrite str_of_Z_sign.
  pose proof (parse_dec_lit (z <? 0)%Z (zdigits z) None None) as H.
  cbn [frac_str frac_digits expo_str expo_val expo_ok app] in H. rewrite !app_nil_r in H.
  rewrite H; auto; [|apply digits_of_digits|apply digits_of_ne].
  unfold zdigits. rewrite digits_of_val. reflexivity.
Qed.

(** ** Rounding depends only on the ratio *)
Lemma div_rne_scale k a b : (0 < k)%N -> (0 < b)%N -> div_rne (k * a) (k * b) = div_rne a b.
Proof.
  intros Hk Hb. unfold div_rne.
  rewrite N.div_mul_cancel_l by lia. rewrite N.mul_mod_distr_l by lia.
  replace (2 * (k * (a mod b)))%N with (k * (2 * (a mod b)))%N by lia.
  replace (k * (2 * (a mod b)) ?= k * b)%N with (2 * (a mod b) ?= b)%N; [reflexivity|].
  symmetry. destruct (N.compare_spec (2 * (a mod b)) b) as [H|H|H];
    [apply N.compare_eq_iff|apply N.compare_lt_iff|apply N.compare_gt_iff]; nia.
Qed.
Lemma div_rne_ratio a b c d :
  (0 < b)%N -> (0 < d)%N -> (a * d = c * b)%N -> div_rne a b = div_rne c d.
Proof.
  intros Hb Hd E. rewrite <- (div_rne_scale d a b), <- (div_rne_scale b c d) by lia.
  f_equal; lia.
Qed.
Lemma div_rne_exact q b : (0 < b)%N -> div_rne (q * b) b = q.
Proof.
  intros Hb. unfold div_rne. rewrite N.div_mul, N.mod_mul by lia.
  rewrite N.mul_0_r. destruct (N.compare_spec 0 b); try lia; auto.
Qed.
(** distance at most half a unit: 2*|a - q*b| <= b *)
Lemma div_rne_error a b : (0 < b)%N ->
  (2 * a <= (2 * div_rne a b + 1) * b /\ (2 * div_rne a b) * b <= 2 * a + b)%N.
Proof.
  intros Hb. unfold div_rne. pose proof (N.div_mod a b ltac:(lia)) as E.
  pose proof (N.mod_lt a b ltac:(lia)) as L.
  set (q := (a / b)%N) in *. set (r := (a mod b)%N) in *.
  destruct (N.compare_spec (2 * r) b) as [H|H|H]; [destruct (N.even q)| |]; nia.
Qed.

Lemma pow2_pos e : (0 < pow2 e)%N.
Proof. unfold pow2. apply N.neq_0_lt_0, N.pow_nonzero. lia. Qed.
Lemma pow10_pos e : (0 < pow10 e)%N.
Proof. unfold pow10. apply N.neq_0_lt_0, N.pow_nonzero. lia. Qed.

(** [lge a b k]: a/b >= 2^k *)
Definition lge (a b : N) (k : Z) : Prop := (b * pow2 k <= a * pow2 (- k))%N.

Lemma pow2_split k c : (0 <= c)%Z -> (0 <= k + c)%Z -> (pow2 (k + c) * pow2 (- k) = pow2 k * pow2 c)%N.
Proof.
  intros Hc Hk. unfold pow2. rewrite <- !N.pow_add_r. f_equal. lia.
Qed.
Lemma lge_shift a b k c : (0 <= c)%Z -> (0 <= k + c)%Z ->
  lge a b k <-> (b * pow2 (k + c) <= a * pow2 c)%N.
Proof.
  intros Hc Hk. unfold lge. pose proof (pow2_split k c Hc Hk) as E.
  pose proof (pow2_pos (-k)). pose proof (pow2_pos k). pose proof (pow2_pos c). pose proof (pow2_pos (k + c)).
  destruct (Z.le_gt_cases 0 k) as [P|P].
  - assert (pow2 (-k) = 1%N) as E1 by (unfold pow2; replace (Z.to_N (-k)) with 0%N by lia; reflexivity).
    rewrite E1 in *. rewrite N.mul_1_r in *. rewrite E. split; intros; nia.
  - assert (pow2 k = 1%N) as E1 by (unfold pow2; replace (Z.to_N k) with 0%N by lia; reflexivity).
    rewrite E1 in *. rewrite N.mul_1_l in *. rewrite <- E. split; intros; nia.
Qed.
Lemma lge_scale a b k s : (0 < s)%N -> lge (s * a) (s * b) k <-> lge a b k.
Proof. intros Hs. unfold lge. rewrite <- !N.mul_assoc, <- N.mul_le_mono_pos_l; [reflexivity|auto]. Qed.
Lemma lge_ratio a b c d k : (0 < b)%N -> (0 < d)%N -> (a * d = c * b)%N -> lge a b k <-> lge c d k.
Proof.
  intros Hb Hd E. rewrite <- (lge_scale a b k d), <- (lge_scale c d k b) by auto.
  replace (d * a)%N with (b * c)%N by lia. replace (d * b)%N with (b * d)%N by lia. reflexivity.
Qed.
Lemma pow2_add x y : (0 <= x)%Z -> (0 <= y)%Z -> pow2 (x + y) = (pow2 x * pow2 y)%N.
Proof. intros. unfold pow2. rewrite <- N.pow_add_r. f_equal. lia. Qed.
Lemma pow2_le x y : (x <= y)%Z -> (pow2 x <= pow2 y)%N.
Proof. intros. unfold pow2. apply N.pow_le_mono_r; lia. Qed.
Lemma lge_mono a b k j : (j <= k)%Z -> lge a b k -> lge a b j.
Proof.
  intros H. rewrite (lge_shift a b k (Z.abs k + Z.abs j)), (lge_shift a b j (Z.abs k + Z.abs j)) by lia.
  intros K. etransitivity; [|exact K]. apply N.mul_le_mono_l, pow2_le. lia.
Qed.
Lemma flog2_spec a b : (0 < a)%N -> (0 < b)%N -> lge a b (flog2 a b) /\ ~ lge a b (flog2 a b + 1).
Proof.
  intros Ha Hb. unfold flog2. set (k := (Z.of_N (N.log2 a) - Z.of_N (N.log2 b))%Z).
  pose proof (N.log2_spec a Ha) as [A1 A2]. pose proof (N.log2_spec b Hb) as [B1 B2].
  assert (~ lge a b (k + 1)) as H1.
  { rewrite (lge_shift a b (k + 1) (Z.of_N (N.log2 b))) by lia.
    replace (k + 1 + Z.of_N (N.log2 b))%Z with (Z.of_N (N.succ (N.log2 a))) by lia.
    unfold pow2. rewrite !N2Z.id. intros K. nia. }
  assert (lge a b (k - 1)) as H2.
  { rewrite (lge_shift a b (k - 1) (Z.of_N (N.succ (N.log2 b)))) by lia.
    replace (k - 1 + Z.of_N (N.succ (N.log2 b)))%Z with (Z.of_N (N.log2 a)) by lia.
    unfold pow2. rewrite !N2Z.id. nia. }
  destruct (N.leb_spec (b * pow2 k) (a * pow2 (- k))) as [H|H].
  - split; auto.
  - split; auto. replace (k - 1 + 1)%Z with k by lia. unfold lge. lia.
Qed.
Lemma flog2_unique a b k : (0 < a)%N -> (0 < b)%N -> lge a b k -> ~ lge a b (k + 1) -> flog2 a b = k.
Proof.
  intros Ha Hb H1 H2. destruct (flog2_spec a b Ha Hb) as [K1 K2].
  destruct (Z.lt_total (flog2 a b) k) as [C|[C|C]]; auto; exfalso.
  - apply K2. eapply lge_mono; [|exact H1]. lia.
  - apply H2. eapply lge_mono; [|exact K1]. lia.
Qed.
Lemma flog2_ratio a b c d : (0 < a)%N -> (0 < b)%N -> (0 < d)%N -> (a * d = c * b)%N -> flog2 a b = flog2 c d.
Proof.
  intros Ha Hb Hd E. assert (0 < c)%N by nia.
  destruct (flog2_spec a b Ha Hb) as [K1 K2]. symmetry. apply flog2_unique; auto.
  - eapply lge_ratio; [| |symmetry; exact E|]; auto.
  - intros K. apply K2. eapply lge_ratio; [| |exact E|]; auto.
Qed.
Lemma round64_ratio neg a b c d : (0 < b)%N -> (0 < d)%N -> (a * d = c * b)%N -> round64 neg a b = round64 neg c d.
Proof.
  intros Hb Hd E. unfold round64.
  destruct (N.eqb_spec a 0) as [Ea|Ea].
  - assert (c = 0)%N as -> by nia. reflexivity.
  - assert (c <> 0)%N as Ec by nia. apply N.eqb_neq in Ec. rewrite Ec.
    rewrite (flog2_ratio a b c d) by (auto; lia).
    set (e := Z.max _ _).
    rewrite (div_rne_ratio (a * pow2 (- e)) (b * pow2 e) (c * pow2 (- e)) (d * pow2 e)); auto.
    + pose proof (pow2_pos e). nia.
    + pose proof (pow2_pos e). nia.
    + nia.
Qed.

Lemma pow10_add x y : (0 <= x)%Z -> (0 <= y)%Z -> pow10 (x + y) = (pow10 x * pow10 y)%N.
Proof. intros. unfold pow10. rewrite <- N.pow_add_r. f_equal. lia. Qed.
Lemma pow10_neg x : (x <= 0)%Z -> pow10 x = 1%N.
Proof. intros. unfold pow10. replace (Z.to_N x) with 0%N by lia. reflexivity. Qed.
Lemma pow10_nat k : pow10 (Z.of_nat k) = (10 ^ N.of_nat k)%N.
Proof. unfold pow10. f_equal. lia. Qed.

(** shifting the decimal point does not change the value *)
Lemma float_of_dec_shift neg m e k :
  float_of_dec (DFin neg (m * 10 ^ N.of_nat k) e) = float_of_dec (DFin neg m (e + Z.of_nat k)).
Proof.
  cbn. apply round64_ratio; try apply pow10_pos. rewrite <- pow10_nat.
  destruct (Z.le_gt_cases 0 e) as [P|P].
  - rewrite !(pow10_neg (- _)) by lia. rewrite pow10_add by lia. lia.
  - rewrite (pow10_neg e) by lia. destruct (Z.le_gt_cases 0 (e + Z.of_nat k)) as [Q|Q].
    + rewrite (pow10_neg (- (e + Z.of_nat k))) by lia.
      replace (Z.of_nat k) with ((e + Z.of_nat k) + - e)%Z at 1 by lia. rewrite pow10_add by lia. lia.
    + rewrite (pow10_neg (e + Z.of_nat k)) by lia.
      replace (- e)%Z with (Z.of_nat k + - (e + Z.of_nat k))%Z by lia. rewrite pow10_add by lia. lia.
Qed.

(** ** repr of a decimal *)
Lemma drop_zeros_spec l : exists k, l = zeros k ++ drop_zeros l.
Proof.
  induction l as [|c r [k E]]; [exists 0%nat; reflexivity|].
  cbn. destruct (aeqb c "0"%char) eqn:Ec.
  - apply aeqb_eq in Ec. subst c. exists (S k). exact (f_equal (cons "0"%char) E).
  - exists 0%nat. reflexivity.
Qed.
Lemma rev_zeros k : rev (zeros k) = zeros k.
Proof.
  unfold zeros. induction k as [|k IH]; auto. cbn [repeat rev]. rewrite IH.
  rewrite <- repeat_cons. reflexivity.
Qed.
Lemma rzeros_spec l : exists k, l = rzeros l ++ zeros k.
Proof.
  unfold rzeros. destruct (drop_zeros_spec (rev l)) as [k E]. exists k.
  rewrite <- (rev_zeros k), <- rev_app_distr, <- E, rev_involutive. reflexivity.
Qed.
Lemma alldigits_app a b : alldigits (a ++ b) = true <-> alldigits a = true /\ alldigits b = true.
Proof. apply forallb_app_iff. Qed.

Lemma exp_str_expo z : exists neg ds, "e"%char :: exp_str z = expo_str (Some (neg, ds)) /\
  expo_ok (Some (neg, ds)) = true /\ expo_val (Some (neg, ds)) = z.
Proof.
  unfold exp_str. set (d := digits_of (Z.abs_N z)).
  pose proof (digits_of_digits (Z.abs_N z)) as Hd. fold d in Hd.
  pose proof (digits_of_val (Z.abs_N z)) as Hv. fold d in Hv.
  pose proof (digits_of_ne (Z.abs_N z)) as Hne. fold d in Hne.
  exists (z <? 0)%Z, (if (length d <? 2)%nat then "0"%char :: d else d).
  split; [destruct (z <? 0)%Z; reflexivity|]. split.
  - cbn [expo_ok]. destruct (length d <? 2)%nat.
    + change (alldigits ("0"%char :: d)) with (alldigits d). rewrite Hd. reflexivity.
    + rewrite Hd. destruct d; [congruence|reflexivity].
  - cbn [expo_val]. etransitivity; [|apply zsigned_abs]. f_equal.
    destruct (length d <? 2)%nat; auto.
Qed.

(** every repr layout is a literal with a point or an exponent *)
Definition lit_shape (s : str) (m : N) (e : Z) : Prop :=
  exists ip ofp oe, s = ip ++ frac_str ofp ++ expo_str oe /\
    alldigits ip = true /\ alldigits (frac_digits ofp) = true /\ expo_ok oe = true /\
    ip <> [] /\ (ofp <> None \/ oe <> None) /\
    exists k, (digits_val (ip ++ frac_digits ofp) = m * 10 ^ N.of_nat k)%N /\
              (expo_val oe - Z.of_nat (length (frac_digits ofp)) + Z.of_nat k = e)%Z.

Lemma repr_layout_shape ds pt :
  ds <> [] -> alldigits ds = true ->
  lit_shape (repr_layout ds pt) (digits_val ds) (pt - Z.of_nat (length ds)).
Proof.
  intros Hne Hd. unfold repr_layout.
  destruct ((pt <=? -4) || (16 <? pt))%Z eqn:Eexp.
  - destruct ds as [|d r]; [congruence|]. clear Hne Eexp.
    destruct (exp_str_expo (pt - 1)) as [neg [es [E1 [E2 E3]]]].
    pose proof Hd as Hd'. change (d :: r) with ([d] ++ r) in Hd'. apply alldigits_app in Hd' as [H1 H2].
    destruct r as [|x r].
    + exists [d], None, (Some (neg, es)). rewrite <- E1. split; [reflexivity|].
      repeat split; auto; try congruence. right; congruence.
      exists 0%nat. split; [cbn [frac_digits app]; change (10 ^ N.of_nat 0)%N with 1%N; lia|].
      rewrite E3. cbn. lia.
    + exists [d], (Some (x :: r)), (Some (neg, es)). rewrite <- E1. split; [reflexivity|].
      repeat split; auto; try congruence. right; congruence.
      exists 0%nat. split; [cbn [frac_digits app]; change (10 ^ N.of_nat 0)%N with 1%N; lia|].
      rewrite E3. cbn. lia.
  - apply orb_false_iff in Eexp as [L1 L2].
    destruct (Z.leb_spec pt 0) as [P|P].
    + exists (lit "0"), (Some (zeros (Z.to_nat (- pt)) ++ ds)), None.
      split; [cbn; rewrite !app_nil_r; reflexivity|].
      split; [reflexivity|]. split; [cbn; apply alldigits_app; auto using zeros_digits|].
      split; [reflexivity|]. split; [discriminate|]. split; [left; congruence|].
      exists 0%nat. cbn [frac_digits expo_val]. split.
      * change (lit "0") with (zeros 1). rewrite !digits_val_app, !digits_val_zeros.
        change (10 ^ N.of_nat 0)%N with 1%N. lia.
      * rewrite app_length, zeros_length. lia.
    + destruct (Z.leb_spec (Z.of_nat (length ds)) pt) as [Q|Q].
      * exists (ds ++ zeros (Z.to_nat pt - length ds)), (Some (lit "0")), None.
        split; [cbn; rewrite <- !app_assoc; reflexivity|].
        split; [apply alldigits_app; auto using zeros_digits|].
        split; [reflexivity|]. split; [reflexivity|].
        split; [destruct ds; [congruence|discriminate]|]. split; [left; congruence|].
        exists (S (Z.to_nat pt - length ds)). cbn [frac_digits expo_val].
        change (lit "0") with (zeros 1). split.
        -- rewrite !digits_val_app, !digits_val_zeros, !zeros_length.
           replace (N.of_nat (S (Z.to_nat pt - length ds))) with (N.succ (N.of_nat (Z.to_nat pt - length ds))) by lia.
           rewrite N.pow_succ_r'. change (10 ^ N.of_nat 1)%N with 10%N. lia.
        -- rewrite zeros_length. lia.
      * set (k := Z.to_nat pt).
        assert (length (firstn k ds) = k) as Lk by (apply firstn_length_le; lia).
        exists (firstn k ds), (Some (skipn k ds)), None.
        pose proof Hd as Hd'. rewrite <- (firstn_skipn k ds) in Hd'. apply alldigits_app in Hd' as [H1 H2].
        split; [cbn; rewrite app_nil_r; reflexivity|].
        split; [auto|]. split; [auto|]. split; [reflexivity|].
        split; [destruct (firstn k ds); [cbn in Lk; lia|discriminate]|]. split; [left; congruence|].
        exists 0%nat. cbn [frac_digits expo_val]. rewrite firstn_skipn. split.
        -- change (10 ^ N.of_nat 0)%N with 1%N. lia.
        -- rewrite skipn_length. lia.
Qed.

Definition has_pt_e (s : str) : Prop := charb "."%char s = true \/ charb "e"%char s = true.

Lemma lit_shape_has s m e : lit_shape s m e -> has_pt_e s.
Proof.
  intros [ip [ofp [oe [-> [_ [_ [_ [_ [H _]]]]]]]]]. unfold has_pt_e, charb. rewrite !existsb_app.
  destruct H as [H|H].
  - destruct ofp; [|congruence]. left. cbn. apply orb_true_iff. right. apply orb_true_iff. left. reflexivity.
  - destruct oe as [[n d]|]; [|congruence]. right. cbn. apply orb_true_iff; right. apply orb_true_iff; right. reflexivity.
Qed.
Lemma lit_shape_numeric neg s m e : lit_shape s m e -> forallb numeric_char (sign_str neg ++ s) = true.
Proof. intros [ip [ofp [oe [-> [H1 [H2 [H3 _]]]]]]]. apply lit_numeric; auto. Qed.
Lemma lit_shape_parse neg s m e :
  lit_shape s m e -> exists d, parse_dec (sign_str neg ++ s) = Some d /\ float_of_dec d = float_of_dec (DFin neg m e).
Proof.
  intros [ip [ofp [oe [-> [H1 [H2 [H3 [H4 [_ [k [E1 E2]]]]]]]]]]].
  eexists. split.
  - apply parse_dec_lit; auto. destruct ip; [congruence|discriminate].
  - rewrite E1. rewrite float_of_dec_shift. rewrite <- E2. reflexivity.
Qed.
Lemma lit_shape_ne s m e : lit_shape s m e -> s <> [].
Proof.
  intros [ip [ofp [oe [-> [_ [_ [_ [H _]]]]]]]] E. apply app_eq_nil in E as [E _]. congruence.
Qed.

Lemma rzeros_digits_ne m : (m <> 0)%N -> rzeros (digits_of m) <> [].
Proof.
  intros H E. destruct (rzeros_spec (digits_of m)) as [k K]. rewrite E in K. cbn in K.
  apply H. rewrite <- (digits_of_val m), K. apply digits_val_zeros.
Qed.

Lemma repr_dec_spec neg m e :
  exists s d, repr_dec neg m e = sign_str neg ++ s /\ has_pt_e s /\
    forallb numeric_char (sign_str neg ++ s) = true /\ s <> [] /\
    parse_dec (sign_str neg ++ s) = Some d /\ float_of_dec d = float_of_dec (DFin neg m e).
Proof.
  unfold repr_dec. destruct (N.eqb_spec m 0) as [->|Hm].
  - exists (lit "0.0"), (DFin neg 0 (-1)). split; [reflexivity|]. split; [left; reflexivity|].
    split; [destruct neg; reflexivity|]. split; [discriminate|].
    split; [destruct neg; reflexivity|].
    cbn. unfold round64. reflexivity.
  - destruct (rzeros_spec (digits_of m)) as [k K].
    set (ds := rzeros (digits_of m)) in *.
    assert (alldigits ds = true) as Hd.
    { pose proof (digits_of_digits m) as H. rewrite K in H. apply alldigits_app in H. tauto. }
    assert (ds <> []) as Hne by (apply rzeros_digits_ne; auto).
    pose proof (repr_layout_shape ds (Z.of_nat (length (digits_of m)) + e) Hne Hd) as Hs.
    destruct (lit_shape_parse neg _ _ _ Hs) as [d [P1 P2]].
    exists (repr_layout ds (Z.of_nat (length (digits_of m)) + e)), d.
    split; [reflexivity|]. split; [eapply lit_shape_has; eauto|].
    split; [eapply lit_shape_numeric; eauto|]. split; [eapply lit_shape_ne; eauto|]. split; [exact P1|].
    rewrite P2.
    assert (m = digits_val ds * 10 ^ N.of_nat k)%N as Em.
    { rewrite <- (digits_of_val m), K, digits_val_app, digits_val_zeros, zeros_length. lia. }
    rewrite Em at 2. rewrite float_of_dec_shift. f_equal. f_equal.
    rewrite K, app_length, zeros_length. lia.
Qed.

(** ** binary64 values *)
Definition wf_float (x : float) : Prop :=
  match x with
  | FFin neg m e => (m = 0%N /\ e = 0%Z) \/
      (N.odd m = true /\ (m < 2 ^ 53)%N /\ (-1074 <= e)%Z /\ (float_num m e < 2 ^ 1024 * float_den e)%N)
  | _ => True
  end.

Lemma norm2_pos_spec p e : let (m, e') := norm2_pos p e in
  N.odd m = true /\ (e <= e')%Z /\ (Npos p = m * pow2 (e' - e))%N.
Proof.
  revert e; induction p as [p IH|p IH|]; intros e; cbn [norm2_pos].
  - split; [reflexivity|]. split; [lia|]. replace (e - e)%Z with 0%Z by lia. change (pow2 0) with 1%N. lia.
  - specialize (IH (e + 1)%Z). destruct (norm2_pos p (e + 1)) as [m e'].
    destruct IH as [H1 [H2 H3]]. split; auto. split; [lia|].
    replace (e' - e)%Z with (1 + (e' - (e + 1)))%Z by lia. rewrite pow2_add by lia.
    change (pow2 1) with 2%N. lia.
  - split; [reflexivity|]. split; [lia|]. replace (e - e)%Z with 0%Z by lia. change (pow2 0) with 1%N. lia.
Qed.
Lemma norm2_spec q e : (q <> 0)%N -> let (m, e') := norm2 q e in
  N.odd m = true /\ (e <= e')%Z /\ (q = m * pow2 (e' - e))%N.
Proof. destruct q as [|p]; [congruence|]. intros _. apply norm2_pos_spec. Qed.
Lemma odd_pow_unique m m' x y : N.odd m = true -> N.odd m' = true ->
  (m * 2 ^ x = m' * 2 ^ y)%N -> m = m' /\ x = y.
Proof.
  revert y. induction x as [|x IH] using N.peano_ind; intros y H H' E.
  - destruct (N.zero_or_succ y) as [->|[y' ->]].
    + rewrite N.pow_0_r, !N.mul_1_r in E. auto.
    + exfalso. rewrite N.pow_0_r, N.pow_succ_r' in E.
      assert (m = 2 * (m' * 2 ^ y'))%N as -> by lia. rewrite N.odd_mul in H. discriminate.
  - destruct (N.zero_or_succ y) as [->|[y' ->]].
    + exfalso. rewrite N.pow_0_r, N.pow_succ_r' in E.
      assert (m' = 2 * (m * 2 ^ x))%N as -> by lia. rewrite N.odd_mul in H'. discriminate.
    + rewrite !N.pow_succ_r' in E. destruct (IH y' H H') as [-> ->]; auto. lia.
Qed.

Lemma odd_pos m : N.odd m = true -> (0 < m)%N.
Proof. destruct m; [discriminate|lia]. Qed.

(** a representable ratio is a fixed point of rounding *)
Lemma round64_exact neg m e : wf_float (FFin neg m e) ->
  round64 neg (float_num m e) (float_den e) = FFin neg m e.
Proof.
  intros [[-> ->]|[Ho [Hm [He Hmax]]]]; [reflexivity|].
  pose proof (odd_pos m Ho) as Hpos. unfold round64, float_num, float_den in *.
  pose proof (pow2_pos e) as Pe. pose proof (pow2_pos (-e)) as Pne.
  destruct (N.eqb_spec (m * pow2 e) 0) as [E|_]; [nia|].
  assert (flog2 (m * pow2 e) (pow2 (- e)) = Z.of_N (N.log2 m) + e)%Z as EL.
  { pose proof (N.log2_spec m Hpos) as [L1 L2].
    set (l := N.log2 m) in *.
    apply flog2_unique; [nia|lia| |].
    - rewrite (lge_shift _ _ _ (Z.abs e)) by lia.
      replace (Z.of_N l + e + Z.abs e)%Z with (Z.of_N l + (e + Z.abs e))%Z by lia.
      rewrite pow2_add by lia.
      replace (pow2 (e + Z.abs e))%N with (pow2 e * pow2 e)%N by
        (destruct (Z.le_gt_cases 0 e); [rewrite <- pow2_add by lia; f_equal; lia|
           unfold pow2; replace (Z.to_N e) with 0%N by lia; replace (Z.to_N (e + Z.abs e)) with 0%N by lia; reflexivity]).
      replace (pow2 (Z.abs e)) with (pow2 e * pow2 (-e))%N by
        (destruct (Z.le_gt_cases 0 e); unfold pow2;
         [replace (Z.to_N (-e)) with 0%N by lia; replace (Z.abs e) with e by lia; rewrite N.pow_0_r; lia|
          replace (Z.to_N e) with 0%N by lia; replace (Z.abs e) with (-e)%Z by lia; rewrite N.pow_0_r; lia]).
      replace (pow2 (Z.of_N l)) with (2 ^ l)%N by (unfold pow2; rewrite N2Z.id; reflexivity).
      nia.
    - rewrite (lge_shift _ _ _ (Z.abs e)) by lia.
      replace (Z.of_N l + e + 1 + Z.abs e)%Z with ((Z.of_N l + 1) + (e + Z.abs e))%Z by lia.
      rewrite pow2_add by lia.
      replace (pow2 (e + Z.abs e))%N with (pow2 e * pow2 e)%N by
        (destruct (Z.le_gt_cases 0 e); [rewrite <- pow2_add by lia; f_equal; lia|
           unfold pow2; replace (Z.to_N e) with 0%N by lia; replace (Z.to_N (e + Z.abs e)) with 0%N by lia; reflexivity]).
      replace (pow2 (Z.abs e)) with (pow2 e * pow2 (-e))%N by
        (destruct (Z.le_gt_cases 0 e); unfold pow2;
         [replace (Z.to_N (-e)) with 0%N by lia; replace (Z.abs e) with e by lia; rewrite N.pow_0_r; lia|
          replace (Z.to_N e) with 0%N by lia; replace (Z.abs e) with (-e)%Z by lia; rewrite N.pow_0_r; lia]).
      replace (pow2 (Z.of_N l + 1)) with (2 ^ N.succ l)%N by (unfold pow2; f_equal; lia).
      intros K. nia. }
  rewrite EL.
  assert (N.log2 m < 53)%N as Hl by (apply N.log2_lt_pow2; auto).
  set (e1 := Z.max (Z.of_N (N.log2 m) + e - 52) (-1074)).
  assert (e1 <= e)%Z as Hle by lia.
  assert (div_rne (m * pow2 e * pow2 (- e1)) (pow2 (- e) * pow2 e1) = m * pow2 (e - e1))%N as EQ.
  { rewrite (div_rne_ratio _ _ (m * pow2 (e - e1) * 1) 1); try lia.
    - rewrite div_rne_exact; lia.
    - pose proof (pow2_pos e1). nia.
    - rewrite !N.mul_1_r.
      assert (pow2 e * pow2 (- e1) = pow2 (e - e1) * (pow2 (-e) * pow2 e1))%N.
      { unfold pow2. rewrite <- !N.pow_add_r. f_equal. lia. }
      nia. }
  rewrite EQ.
  pose proof (pow2_pos (e - e1)) as Pd.
  pose proof (norm2_spec (m * pow2 (e - e1)) e1 ltac:(nia)) as HN.
  destruct (norm2 (m * pow2 (e - e1)) e1) as [m' e'].
  destruct HN as [N1 [N2 N3]]. unfold pow2 in N3.
  destruct (odd_pow_unique _ _ _ _ Ho N1 N3) as [<- Ee].
  assert (e' = e) by lia. subst e'.
  destruct (N.eqb_spec m 0) as [E|_]; [lia|].
  destruct (N.leb_spec (2 ^ 1024) (m * pow2 (e - e1) * pow2 e1)) as [Q|Q]; [exfalso|reflexivity].
  destruct (Z.le_gt_cases 0 e1) as [P|P].
  - assert (pow2 (-e) = 1%N) as E1 by (unfold pow2; replace (Z.to_N (-e)) with 0%N by lia; reflexivity).
    rewrite E1 in *. rewrite <- N.mul_assoc, <- pow2_add in Q by lia.
    replace (e - e1 + e1)%Z with e in Q by lia. lia.
  - assert (pow2 e1 = 1%N) as E1 by (unfold pow2; replace (Z.to_N e1) with 0%N by lia; reflexivity).
    rewrite E1 in Q.
    destruct (Z.le_gt_cases e 0) as [R|R].
    + assert (pow2 (e - e1) <= pow2 1074)%N by (apply pow2_le; lia).
      (* e - e1 <= 52 - log2 m or e <= ... *)
      assert (m * pow2 (e - e1) < 2 ^ 1024)%N; [|lia].
      destruct (Z.le_gt_cases (Z.of_N (N.log2 m) + e - 52) (-1074)) as [W|W].
      * assert (e - e1 <= 52)%Z by lia.
        assert (pow2 (e - e1) <= 2 ^ 52)%N by (change (2 ^ 52)%N with (pow2 52); apply pow2_le; lia).
        apply N.le_lt_trans with (2 ^ 53 * 2 ^ 52)%N; [nia|]. vm_compute. reflexivity.
      * assert (e - e1 <= 52)%Z by lia.
        assert (pow2 (e - e1) <= 2 ^ 52)%N by (change (2 ^ 52)%N with (pow2 52); apply pow2_le; lia).
        apply N.le_lt_trans with (2 ^ 53 * 2 ^ 52)%N; [nia|]. vm_compute. reflexivity.
    + assert (e - e1 <= 52)%Z by lia.
      assert (pow2 (e - e1) <= 2 ^ 52)%N by (change (2 ^ 52)%N with (pow2 52); apply pow2_le; lia).
      assert (m * pow2 (e - e1) < 2 ^ 1024)%N; [|lia].
      apply N.le_lt_trans with (2 ^ 53 * 2 ^ 52)%N; [nia|]. vm_compute. reflexivity.
Qed.

Lemma div_rne_le a b q : (0 < b)%N -> (a <= q * b)%N -> (div_rne a b <= q)%N.
Proof.
  intros Hb H. destruct (div_rne_error a b Hb) as [_ K].
  assert (2 * div_rne a b * b <= (2 * q + 1) * b)%N by lia.
  apply N.mul_le_mono_pos_r in H0; [lia|auto].
Qed.

Lemma round64_wf neg a b : (0 < b)%N -> wf_float (round64 neg a b).
Proof.
  intros Hb. unfold round64. destruct (N.eqb_spec a 0) as [E|Ha]; [left; auto|].
  destruct (flog2_spec a b ltac:(lia) Hb) as [_ F2].
  set (e := Z.max (flog2 a b - 52) (-1074)) in *.
  set (q := div_rne (a * pow2 (- e)) (b * pow2 e)) in *.
  pose proof (pow2_pos e) as Pe. pose proof (pow2_pos (-e)) as Pne.
  assert (q <= 2 ^ 53)%N as Hq.
  { apply div_rne_le; [nia|].
    assert (~ lge a b (e + 53)) as F3 by (intros K; apply F2; eapply lge_mono; [|exact K]; lia).
    rewrite (lge_shift _ _ _ (Z.abs e)) in F3 by lia.
    replace (e + 53 + Z.abs e)%Z with (53 + (e + Z.abs e))%Z in F3 by lia.
    rewrite pow2_add in F3 by lia. change (pow2 53) with (2 ^ 53)%N in F3.
    destruct (Z.le_gt_cases 0 e) as [P|P].
    - rewrite Z.abs_eq in F3 by lia. rewrite pow2_add in F3 by lia.
      assert (pow2 (-e) = 1%N) as E1 by (unfold pow2; replace (Z.to_N (-e)) with 0%N by lia; reflexivity).
      rewrite E1. nia.
    - rewrite Z.abs_neq in F3 by lia. replace (e + - e)%Z with 0%Z in F3 by lia.
      change (pow2 0) with 1%N in F3.
      assert (pow2 e = 1%N) as E1 by (unfold pow2; replace (Z.to_N e) with 0%N by lia; reflexivity).
      rewrite E1. nia. }
  destruct (N.eq_dec q 0) as [Eq|Eq].
  - rewrite Eq. cbn. left; auto.
  - pose proof (norm2_spec q e Eq) as HN. destruct (norm2 q e) as [m e'].
    destruct HN as [N1 [N2 N3]]. pose proof (odd_pos m N1) as Pm.
    destruct (N.eqb_spec m 0) as [E|_]; [lia|].
    destruct (N.leb_spec (2 ^ 1024) (q * pow2 e)) as [Q|Q]; [exact I|].
    right. split; auto. pose proof (pow2_pos (e' - e)) as Pd.
    assert (m < 2 ^ 53)%N as Hm53.
    { destruct (N.eq_dec m (2 ^ 53)) as [->|]; [vm_compute in N1; discriminate|]. nia. }
    split; auto. split; [lia|].
    unfold float_num, float_den.
    destruct (Z.le_gt_cases 0 e) as [P|P].
    + assert (q * pow2 e = m * pow2 e')%N as EE.
      { rewrite N3, <- N.mul_assoc, <- pow2_add by lia. do 2 f_equal. lia. }
      pose proof (pow2_pos (-e')). nia.
    + destruct (Z.le_gt_cases 0 e') as [P'|P'].
      * assert (pow2 (-e') = 1%N) as -> by (unfold pow2; replace (Z.to_N (-e')) with 0%N by lia; reflexivity).
        assert (pow2 e' <= pow2 (e' - e))%N by (apply pow2_le; lia).
        apply N.le_lt_trans with (2 ^ 53)%N; [nia|]. vm_compute. reflexivity.
      * assert (pow2 e' = 1%N) as -> by (unfold pow2; replace (Z.to_N e') with 0%N by lia; reflexivity).
        pose proof (pow2_pos (-e')).
        apply N.lt_le_trans with (2 ^ 1024 * 1)%N; [|nia].
        rewrite !N.mul_1_r. apply N.lt_trans with (2 ^ 53)%N; [auto|]. vm_compute. reflexivity.
Qed.
Lemma float_of_dec_wf d : wf_float (float_of_dec d).
Proof. destruct d; cbn; auto. apply round64_wf, pow10_pos. Qed.
Lemma parse_float_wf s x : parse_float s = Some x -> wf_float x.
Proof.
  unfold parse_float. destruct (parse_dec s); cbn; [|discriminate]. intros [= <-]. apply float_of_dec_wf.
Qed.

Lemma feqb_eq x y : feqb x y = true <-> x = y.
Proof.
  destruct x as [n m e|n|], y as [n' m' e'|n'|]; cbn; split; try congruence; try discriminate; intros H.
  - apply andb_true_iff in H as [H H3]. apply andb_true_iff in H as [H1 H2].
    apply eqb_prop in H1. apply N.eqb_eq in H2. apply Z.eqb_eq in H3. congruence.
  - inversion H; subst. rewrite eqb_reflx, N.eqb_refl, Z.eqb_refl. reflexivity.
  - apply eqb_prop in H. congruence.
  - inversion H. apply eqb_reflx.
Qed.

Lemma dec_exact_value neg m e : wf_float (FFin neg m e) -> float_of_dec (dec_exact neg m e) = FFin neg m e.
Proof.
  intros H. rewrite <- (round64_exact neg m e H). unfold dec_exact.
  destruct (Z.leb_spec 0 e) as [P|P]; cbn [float_of_dec]; apply round64_ratio; try apply pow10_pos; try apply pow2_pos;
    unfold float_num, float_den.
  - change (pow10 0) with 1%N. change (pow10 (-0)) with 1%N.
    replace (pow2 (- e)) with 1%N by (unfold pow2; replace (Z.to_N (-e)) with 0%N by lia; reflexivity). lia.
  - unfold pow10, pow2. replace (Z.to_N e) with 0%N by lia. rewrite !N.pow_0_r, !N.mul_1_r.
    rewrite <- N.mul_assoc. rewrite <- N.pow_mul_l. reflexivity.
Qed.
Lemma shortest_value ns neg m e : wf_float (FFin neg m e) ->
  float_of_dec (shortest ns neg m e) = FFin neg m e.
Proof.
  intros H. induction ns as [|n ns IH]; cbn [shortest]; [apply dec_exact_value; auto|].
  destruct (feqb _ _) eqn:E; [apply feqb_eq in E; exact E|exact IH].
Qed.
Lemma shortest_fin ns neg m e : exists m' e', shortest ns neg m e = DFin neg m' e'.
Proof.
  induction ns as [|n ns IH]; cbn [shortest].
  - unfold dec_exact. destruct (0 <=? e)%Z; eauto.
  - destruct (feqb _ _); [unfold dec_n; eauto|exact IH].
Qed.

Definition finite (x : float) : bool := match x with FFin _ _ _ => true | _ => false end.

(** repr prints a literal that reads back as the same float *)
Theorem repr_float_spec x : wf_float x -> finite x = true ->
  parse_float (repr_float x) = Some x /\ has_pt_e (repr_float x) /\
  forallb numeric_char (repr_float x) = true /\ repr_float x <> [].
Proof.
  destruct x as [neg m e| |]; cbn [finite]; try discriminate. intros H _. unfold repr_float.
  destruct (N.eqb_spec m 0) as [->|Hm].
  - destruct H as [[_ ->]|[H _]]; [|discriminate].
    destruct neg; (split; [reflexivity|split; [left; reflexivity|split; [reflexivity|discriminate]]]).
  - pose proof (shortest_value repr_digits neg m e H) as V.
    destruct (shortest_fin repr_digits neg m e) as [m' [e' E]]. rewrite E in *.
    destruct (repr_dec_spec neg m' e') as [s [d [R1 [R2 [R3 [R4 [R5 R6]]]]]]].
    rewrite R1. split; [|split; [|split; auto]].
    + unfold parse_float. rewrite R5. cbn [option_map]. rewrite R6, V. reflexivity.
    + unfold has_pt_e, charb in *. rewrite !existsb_app, !orb_true_iff. tauto.
    + intros K. apply app_eq_nil in K as [_ K]. congruence.
Qed.
