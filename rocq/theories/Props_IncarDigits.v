(** Property C93: the numbers of an INCAR keep their decimal value. *)
From Coq Require Import Ascii String List NArith ZArith Bool Lia Arith Permutation Sorted.
From Verif Require Import PyBase PyStrLemmas PyNum PyNumLemmas PyFmtDigits PyShort IncarTags IncarModel IncarSpec IncarProofs IncarRoundTrip IncarTokens IncarTheorems Props_Incar.
Import ListNotations.
Local Open Scope list_scope.
Local Open Scope bool_scope.
Local Open Scope nat_scope.

(** ** Specification *)
(** [same_decimal m e m' e'] (PyFmtDigits): m * 10^e and m' * 10^e' are the same number *)
(** a number other than zero, of at most fifteen significant digits, not extremely small or large:
    [t] is written as [+/- m * 10^e], in any of the ways Python's float() takes *)
Definition short_number (t : str) (neg : bool) (m : N) (e : Z) : Prop :=
  parse_dec t = Some (DFin neg m e) /\ (0 < m < 10 ^ 15)%N /\ (-250 <= e <= 250)%Z.
(** [t'] is the same number as [t], digit for digit, when [t] is short *)
Definition keeps_number (t t' : str) : Prop := forall neg m e, short_number t neg m e ->
  exists m' e', parse_dec t' = Some (DFin neg m' e') /\ same_decimal m e m' e'.

(** ** Proofs *)
Lemma repr_dec_parse neg m e : (0 < m)%N -> exists m' e', parse_dec (repr_dec neg m e) = Some (DFin neg m' e') /\ same_decimal m e m' e'.
Proof.
  intros P. unfold repr_dec. destruct (N.eqb_spec m 0) as [->|M]; [lia|]. destruct (rzeros_spec (digits_of m)) as [k0 K]. set (ds := rzeros (digits_of m)) in *.
  assert (Hd : alldigits ds = true). { pose proof (digits_of_digits m) as X. rewrite K in X. apply alldigits_app in X. tauto. }
  assert (Hne : ds <> []) by (apply rzeros_digits_ne; auto).
  destruct (repr_layout_shape ds (Z.of_nat (length (digits_of m)) + e) Hne Hd) as (ip & ofp & oe & -> & H1 & H2 & H3 & H4 & _ & k & E1 & E2).
  eexists _, _. split; [apply parse_dec_lit; auto; destruct ip; [congruence|discriminate]|].
  assert (Em : (m = digits_val ds * 10 ^ N.of_nat k0)%N). { rewrite <- (digits_of_val m), K, digits_val_app, digits_val_zeros, zeros_length. lia. }
  rewrite E1. assert (L : Z.of_nat (length (digits_of m)) = (Z.of_nat (length ds) + Z.of_nat k0)%Z) by (rewrite K, app_length, zeros_length; lia).
  destruct (Nat.le_ge_cases k0 k) as [C|C]; [exists (k - k0); left|exists (k0 - k); right]; (split; [|lia]); rewrite Em, <- N.mul_assoc, <- N.pow_add_r, <- Nat2N.inj_add; f_equal; f_equal; f_equal; lia.
Qed.
Lemma same_decimal_refl m e : same_decimal m e m e.
Proof. exists 0. left. cbn. lia. Qed.
Lemma token_kept t a : token_denotes t a -> keeps_number t (shown_atom a).
Proof.
  intros D neg m e [H [P E]]. destruct D as [z Z|x Z X|b X _|X _]; cbn [shown_atom].
  - destruct (parse_int_dec _ _ Z) as (n' & k & D & ->). rewrite D in H. injection H as -> -> <-. rewrite parse_dec_str_of_Z.
    exists m, 0%Z. split; [|apply same_decimal_refl]. f_equal. f_equal; [|unfold zsigned; destruct neg; lia]. unfold zsigned. destruct neg; [apply Z.ltb_lt|apply Z.ltb_ge]; lia.
  - unfold parse_float in X. rewrite H in X. cbn [option_map] in X. assert (x = float_of_dec (DFin neg m e)) as -> by congruence. rewrite repr_short by (try apply P; auto). apply repr_dec_parse. lia.
  - unfold parse_float in X. rewrite H in X. discriminate X.
  - unfold parse_float in X. rewrite H in X. discriminate X.
Qed.
Lemma tokens_kept ts l : Forall2 token_denotes ts l -> Forall2 keeps_number ts (map shown_atom l).
Proof. induction 1; constructor; auto. apply token_kept. auto. Qed.
Lemma shown_list l : (forall b, l <> [ABool b]) -> shown (match l with [a] => VAtom a | _ => VList l end) = join (lit " ") (map shown_atom l).
Proof. intros H. destruct l as [|a [|b l]]; try reflexivity. destruct a; try reflexivity. destruct (H b). reflexivity. Qed.

Lemma kept x k v w : reachable x -> get x k = Some w -> text_denotes k v w -> ~ raw_tag k ->
  exists ls ts, get_string x = unlines ls /\ In (upper k ++ lit " = " ++ join (lit " ") ts) ls /\ Forall2 keeps_number (split_ws v) ts.
Proof.
  intros R G [[C _]|[_ (l & F & ->)]] NR; [contradiction|]. destruct (C07_layout x R) as (ls & PL & _ & E).
  exists (map shown_entry ls). apply (get_dict_get x) in G; auto. apply (Permutation_in _ (Permutation_sym PL)) in G.
  apply (in_map shown_entry) in G. unfold shown_entry at 1 in G. cbn [fst snd] in G.
  assert (D : (exists b, l = [ABool b]) \/ forall b, l <> [ABool b]).
  { destruct l as [|a [|]]; try (right; discriminate). destruct a; try (right; discriminate). left. eauto. }
  destruct D as [[b ->]|D].
  - exists [if b then lit ".TRUE." else lit ".FALSE."]. split; auto. split; [exact G|]. inversion F as [|t a ts r T F' Q1 Q2]; subst. inversion F'; subst. constructor; [|constructor].
    intros neg m e [H _]. inversion T; subst. match goal with X : parse_float _ = None |- _ => unfold parse_float in X; rewrite H in X; discriminate X end.
  - exists (map shown_atom l). split; auto. rewrite (shown_list l D) in G. split; [exact G|]. apply tokens_kept. auto.
Qed.

(** ** C93 *)
Theorem C93_incar_digits_string : forall txt vt x k v, incar_of_string txt vt = Ok x ->
  last_assigned k (assignments (splitlines txt)) = Some v -> ~ raw_tag k ->
  exists ls ts, get_string x = unlines ls /\ In (upper k ++ lit " = " ++ join (lit " ") ts) ls /\ Forall2 keeps_number (split_ws v) ts.
Proof.
  intros txt vt x k v H L NR. destruct (C04_last_assignment_wins _ _ _ H) as [W _]. specialize (W k). rewrite L in W. destruct W as (w & G & D).
  eapply kept; eauto. eapply string_reachable. exact H.
Qed.
Print Assumptions C93_incar_digits_string.
Theorem C93_incar_digits_file : forall txt vt x k v, incar_of_file txt vt = Ok x ->
  last_assigned k (assignments (readlines (translate_newlines txt))) = Some v -> ~ raw_tag k ->
  exists ls ts, get_string x = unlines ls /\ In (upper k ++ lit " = " ++ join (lit " ") ts) ls /\ Forall2 keeps_number (split_ws v) ts.
Proof.
  intros txt vt x k v H L NR. destruct (C04_last_assignment_wins_file _ _ _ H) as [W _]. specialize (W k). rewrite L in W. destruct W as (w & G & D).
  eapply kept; eauto. exists (Args None None (Some (Some txt)) None), vt, x, []. split; auto.
Qed.
Print Assumptions C93_incar_digits_file.
(** str(float(t)) for any short decimal, and the number it denotes *)
Theorem C93_float_text : forall t neg m e, short_number t neg m e ->
  exists x t', parse_float t = Some x /\ str_atom (AFloat x) = t' /\ exists m' e', parse_dec t' = Some (DFin neg m' e') /\ same_decimal m e m' e'.
Proof.
  intros t neg m e (H & P & E). unfold parse_float. rewrite H. eexists _, _. split; [reflexivity|]. split; [reflexivity|]. cbn [str_atom]. rewrite repr_short by (try apply P; auto). apply repr_dec_parse. lia.
Qed.
Print Assumptions C93_float_text.
(** a longer number is rounded to what seventeen digits can show *)
Theorem C93_sixteen_digits_refuted : exists txt x, incar_of_string txt true = Ok x /\ txt = lit "ENCUT = 9007199254740993.0" /\ get_string x = unlines [lit "ENCUT = 9007199254740992.0"].
Proof. exists (lit "ENCUT = 9007199254740993.0"). eexists. split; [vm_compute; reflexivity|]. split; [reflexivity|vm_compute; reflexivity]. Qed.
Print Assumptions C93_sixteen_digits_refuted.
(** numbers as they are shown: 0.1 and not 0.1000000000000000055, 1e-05, 1e+16, 5.2e2 as 520.0 *)
Definition digits_text : str := unlines (map lit ["EDIFF = 1E-5 "; "ENCUT = 5.2e2"; "SIGMA = .1"; "AMIX = 1e16"; "BMIX = 1e15"; "AMIN = 1.25E-4"; "POTIM = -0.3 123456.789012345 1e-7 00.30 1_0.5"; "NSW = 1000000000000000000000"]%string).
Example C93_case : exists x, incar_of_string digits_text false = Ok x /\ get_string x = unlines (map lit
  ["AMIN = 0.000125"; "AMIX = 1e+16"; "BMIX = 1000000000000000.0"; "EDIFF = 1e-05"; "ENCUT = 520.0"; "NSW = 1000000000000000000000"; "POTIM = -0.3 123456.789012345 1e-07 0.3 10.5"; "SIGMA = 0.1"]%string) /\
  short_number (lit "123456.789012345") false 123456789012345 (-9).
Proof. eexists. split; [vm_compute; reflexivity|]. split; [vm_compute; reflexivity|]. split; [vm_compute; reflexivity|]. split; [lia|lia]. Qed.
(** the smallest float, the largest, the sign of zero, halves, a number with seventeen digits *)
Example C93_shown : map (fun s => match parse_float (lit s) with Some x => repr_float x | None => [] end)
  ["5e-324"; "1.7976931348623157e308"; "-0.0"; "0.5"; "2.675"; "0.30000000000000004"; "123456789012345678"; "9999999999999998"; "1e22"; "1e23"; "0.0001"; "0.00001"; "-inf"]%string =
  map lit ["5e-324"; "1.7976931348623157e+308"; "-0.0"; "0.5"; "2.675"; "0.30000000000000004"; "1.2345678901234568e+17"; "9999999999999998.0"; "1e+22"; "1e+23"; "0.0001"; "1e-05"; "-inf"]%string.
Proof. vm_compute. reflexivity. Qed.
