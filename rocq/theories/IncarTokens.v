(** Token typing: what int(), float() and the logical test make of one token. *)
From Coq Require Import Ascii String List NArith ZArith Bool Lia Arith.
From Verif Require Import PyBase PyStrLemmas PyNum PyNumLemmas IncarModel IncarSpec IncarProofs IncarRoundTrip.
Import ListNotations.
Local Open Scope list_scope.
Local Open Scope bool_scope.

(** removing underscores keeps all other characters *)
Lemma strip_us_chars l : forall b t, strip_us b l = Some t ->
  forall c, c <> "_"%char -> (In c l <-> In c t).
Proof.
  induction l as [|x r IH]; cbn [strip_us]; intros b t H c Hc.
  - inversion H; subst. tauto.
  - destruct (aeqb x "_"%char) eqn:E.
    + apply aeqb_eq in E. subst x. destruct b; [|discriminate]. destruct r as [|c' r]; [discriminate|].
      destruct (is_digit c'); [|discriminate]. rewrite <- (IH _ _ H c Hc). cbn. split; [|auto].
      intros [K|K]; [congruence|exact K].
    + destruct (strip_us (is_digit x) r) as [t'|] eqn:E'; [|discriminate]. inversion H; subst.
      cbn. rewrite (IH _ _ E' c Hc). tauto.
Qed.
Lemma strip_us_nodigit l : forall t, strip_us false l = Some t -> (forall c, In c t -> is_digit c = false) -> t = l.
Proof.
  induction l as [|x r IH]; cbn [strip_us]; intros t H Hd.
  - inversion H; auto.
  - destruct (aeqb x "_"%char); [discriminate|].
    destruct (strip_us (is_digit x) r) as [t'|] eqn:E'; [|discriminate]. inversion H; subst.
    rewrite (Hd x (or_introl eq_refl)) in E'. f_equal. apply IH; auto. intros; apply Hd; right; auto.
Qed.
Lemma span_digits_spec l : forall a b, span_digits l = (a, b) -> l = a ++ b /\ alldigits a = true /\ nohead_digit b = true.
Proof.
  induction l as [|x r IH]; cbn; intros a b H; [inversion H; auto|].
  destruct (is_digit x) eqn:E.
  - destruct (span_digits r) as [a' b']. inversion H; subst. destruct (IH _ _ eq_refl) as [-> [H1 H2]].
    cbn. rewrite E. auto.
  - inversion H; subst. cbn. rewrite E. auto.
Qed.
Lemma take_sign_spec t : let (neg, d) := take_sign t in
  t = d \/ exists c, t = c :: d /\ (c = "-"%char \/ c = "+"%char).
Proof.
  destruct t as [|c r]; cbn; auto.
  destruct (aeqb c "-"%char) eqn:E1; [apply aeqb_eq in E1; subst; right; eauto|].
  destruct (aeqb c "+"%char) eqn:E2; [apply aeqb_eq in E2; subst; right; eauto|auto].
Qed.
Lemma In_strip c l : is_space c = false -> In c l <-> In c (strip l).
Proof.
  intros Hc. destruct (strip_spec l) as [p [q [Hp [Hq E]]]].
  unfold blank in *. rewrite forallb_forall in Hp, Hq. split; [|apply strip_chars].
  intros H. rewrite E in H. rewrite !in_app_iff in H. destruct H as [H|[H|H]]; auto.
  - apply Hp in H. congruence.
  - apply Hq in H. congruence.
Qed.

Definition num_shape (t d : str) : Prop := t = d \/ exists c, t = c :: d /\ (c = "-"%char \/ c = "+"%char).
Lemma parse_int_shape e z : parse_int e = Some z ->
  exists neg t d, strip_us false (strip e) = Some t /\ take_sign t = (neg, d) /\ alldigits d = true /\ d <> [] /\
    z = zsigned neg (digits_val d).
Proof.
  unfold parse_int. destruct (strip_us false (strip e)) as [t|]; [|discriminate].
  destruct (take_sign t) as [neg d] eqn:E. destruct (span_digits d) as [a b] eqn:S.
  apply span_digits_spec in S as [-> [Ha Hb]]. destruct a as [|x a]; [discriminate|].
  destruct b; [|discriminate]. intros H. inversion H; subst. rewrite app_nil_r in E.
  exists neg, t, (x :: a). repeat split; auto. discriminate.
Qed.

Lemma parse_int_plain e z c : parse_int e = Some z -> In c e -> c <> "_"%char -> is_space c = false ->
  is_digit c = true \/ c = "-"%char \/ c = "+"%char.
Proof.
  intros H Hc Hu Hs. apply parse_int_shape in H as [neg [t [d [H1 [H2 [H3 [H4 _]]]]]]].
  apply (In_strip c e Hs) in Hc. apply (strip_us_chars _ _ _ H1 c Hu) in Hc.
  pose proof (take_sign_spec t) as K. rewrite H2 in K. unfold alldigits in H3. rewrite forallb_forall in H3.
  destruct K as [->|[x [-> [->| ->]]]]; [auto| |]; destruct Hc as [<-|Hc]; auto.
Qed.
Lemma nochar_not_In c l : ~ In c l -> nochar c l = true.
Proof. apply nochar_In. Qed.
Lemma charb_In c l : charb c l = true <-> In c l.
Proof.
  unfold charb. rewrite existsb_exists. split; [intros [x [H1 H2]]; apply aeqb_eq in H2; subst; auto|].
  intros H. exists c. split; auto. apply aeqb_refl.
Qed.
Lemma charb_false c l : charb c l = false <-> ~ In c l.
Proof. rewrite <- charb_In. destruct (charb c l); split; congruence. Qed.

Lemma parse_int_dec e z : parse_int e = Some z -> exists neg n, parse_dec e = Some (DFin neg n 0) /\ z = zsigned neg n.
Proof.
  intros H. apply parse_int_shape in H as [neg [t [d [H1 [H2 [H3 [H4 H5]]]]]]].
  exists neg, (digits_val d). split; auto. unfold parse_dec. rewrite H1, H2.
  pose proof (parse_unsigned_lit neg d None None H3 eq_refl eq_refl) as P.
  cbn [frac_str frac_digits expo_str expo_val] in P. rewrite !app_nil_r in P. cbn in P. apply P. exact H4.
Qed.

Lemma content_int e z : parse_int e = Some z -> test_string_content e = CInt.
Proof.
  intros H. pose proof (parse_int_dec e z H) as [neg [n [P _]]].
  unfold test_string_content, parse_float. rewrite P. cbn [option_map].
  assert (forall c, is_digit c = false -> is_space c = false -> c <> "-"%char -> c <> "+"%char -> c <> "_"%char -> ~ In c e) as K.
  { intros c D S N1 N2 N3 Hc. destruct (parse_int_plain e z c H Hc N3 S) as [K|[K|K]]; congruence. }
  rewrite count_char_0 by (apply nochar_not_In, K; try reflexivity; discriminate).
  assert (charb "e"%char e = false) as -> by (apply charb_false, K; try reflexivity; discriminate).
  assert (charb "E"%char e = false) as -> by (apply charb_false, K; try reflexivity; discriminate).
  reflexivity.
Qed.

Lemma lower1_digit c : is_digit c = true -> is_digit (lower1 c) = true.
Proof.
  assert (implb (is_digit c) (is_digit (lower1 c)) = true) as H.
  { revert c. apply forall_ascii. vm_compute. reflexivity. }
  intros E. rewrite E in H. exact H.
Qed.
Lemma lower_special_nodigit w : In (lower w) (map lit ["inf"; "infinity"; "nan"]%string) ->
  forall c, In c w -> is_digit c = false.
Proof.
  intros H c Hc. destruct (is_digit c) eqn:E; auto. exfalso.
  apply lower1_digit in E. assert (In (lower1 c) (lower w)) as K by (apply in_map; auto).
  cbn in H. destruct H as [H|[H|[H|[]]]]; rewrite <- H in K; cbn in K;
    repeat (destruct K as [K|K]; [rewrite <- K in E; discriminate E|]); destruct K.
Qed.

Lemma no_pt_special e d : parse_dec e = Some d -> ~ In "."%char e -> ~ In "e"%char e -> ~ In "E"%char e ->
  (exists z, parse_int e = Some z) \/ (parse_int e = None /\ special e).
Proof.
  unfold parse_dec, parse_int. destruct (strip_us false (strip e)) as [t|] eqn:S; [|discriminate].
  intros H N1 N2 N3.
  assert (forall c, is_space c = false -> c <> "_"%char -> ~ In c e -> ~ In c t) as K.
  { intros c C1 C2 C3 C4. apply C3. apply (In_strip c e C1). apply (strip_us_chars _ _ _ S c C2). auto. }
  apply K in N1; [|reflexivity|discriminate]. apply K in N2; [|reflexivity|discriminate]. apply K in N3; [|reflexivity|discriminate].
  pose proof (take_sign_spec t) as T. destruct (take_sign t) as [neg d0] eqn:TS.
  assert (incl d0 t) as Hin by (destruct T as [->|[x [-> _]]]; [apply incl_refl|apply incl_tl, incl_refl]).
  unfold parse_unsigned in H.
  destruct (seqb (lower d0) (lit "inf") || seqb (lower d0) (lit "infinity") || seqb (lower d0) (lit "nan")) eqn:Sp.
  - assert (In (lower d0) (map lit ["inf"; "infinity"; "nan"]%string)) as Hsp.
    { rewrite !orb_true_iff, !seqb_eq in Sp. cbn [map In]. destruct Sp as [[Sp|Sp]|Sp]; rewrite Sp; auto. }
    right. pose proof (lower_special_nodigit d0 Hsp) as Hnd.
    split.
    + destruct (span_digits d0) as [a b] eqn:Sd. apply span_digits_spec in Sd as [Ed [Ha _]].
      destruct a as [|x a]; auto. exfalso. cbn in Ha. apply andb_true_iff in Ha as [Ha _].
      rewrite (Hnd x) in Ha; [discriminate|]. rewrite Ed. left; auto.
    + assert (t = strip e) as Et.
      { apply (strip_us_nodigit _ _ S). intros c Hc. destruct T as [->|[x [-> Hx]]]; auto.
        destruct Hc as [<-|Hc]; auto. destruct Hx as [->| ->]; reflexivity. }
      unfold special. rewrite <- Et. destruct T as [->|[x [-> Hx]]].
      * exists [], d0. cbn [In]. auto.
      * exists [x], d0. split; [reflexivity|]. split; auto. destruct Hx as [->| ->]; cbn; auto.
  - rewrite !orb_false_iff in Sp. destruct Sp as [[S1 S2] S3]. rewrite S1, S2, S3 in H. cbn [orb] in H.
    left. destruct (span_digits d0) as [ip r1] eqn:Sd. apply span_digits_spec in Sd as [Ed [Ha Hb]].
    destruct r1 as [|c r].
    + destruct ip as [|x ip]; [discriminate|]. eauto.
    + exfalso. assert (In c t) as Hc by (apply Hin; rewrite Ed; apply in_elt).
      destruct (aeqb c "."%char) eqn:Ec; [apply aeqb_eq in Ec; subst; auto|].
      destruct (ip ++ []); [discriminate|]. unfold parse_exp in H.
      destruct (aeqb c "e"%char) eqn:E1; [apply aeqb_eq in E1; subst; auto|].
      destruct (aeqb c "E"%char) eqn:E2; [apply aeqb_eq in E2; subst; auto|]. discriminate.
Qed.

Lemma special_not_int e : special e -> parse_int e = None.
Proof.
  intros [sg [w [E [H1 H2]]]]. destruct (parse_int e) as [z|] eqn:P; auto. exfalso.
  assert (exists c, In c e /\ is_space c = false /\ c <> "_"%char /\ is_digit c = false /\ c <> "-"%char /\ c <> "+"%char) as
    [c [C1 [C2 [C3 [C4 [C5 C6]]]]]].
  { assert (exists c, In c w /\ (lower1 c = "i"%char \/ lower1 c = "n"%char)) as [c [Hc Hl]].
    { destruct w as [|c w]; [cbn in H2; destruct H2 as [H2|[H2|[H2|[]]]]; discriminate H2|].
      exists c. split; [left; auto|]. cbn in H2. destruct H2 as [H2|[H2|[H2|[]]]]; injection H2; auto. }
    exists c. assert (implb (aeqb (lower1 c) "i"%char || aeqb (lower1 c) "n"%char)
       (negb (is_space c || aeqb c "_"%char || is_digit c || aeqb c "-"%char || aeqb c "+"%char)) = true) as K.
    { clear. revert c. apply forall_ascii. vm_compute. reflexivity. }
    assert (aeqb (lower1 c) "i"%char || aeqb (lower1 c) "n"%char = true) as L
      by (rewrite orb_true_iff, !aeqb_eq; auto).
    rewrite L in K. cbn [implb] in K. rewrite negb_true_iff, !orb_false_iff, !aeqb_neq in K.
    destruct K as [[[[K1 K2] K3] K4] K5]. split; [|auto].
    assert (In c (strip e)) as Q by (rewrite E; apply in_or_app; auto). apply strip_chars in Q. auto. }
  destruct (parse_int_plain e z c P C1 C3 C2) as [K|[K|K]]; congruence.
Qed.

Lemma no_ptE e : (count_char "."%char e =? 0) && negb (charb "e"%char e) && negb (charb "E"%char e) = true <->
  ~ In "."%char e /\ ~ In "e"%char e /\ ~ In "E"%char e.
Proof.
  rewrite !andb_true_iff, !negb_true_iff, !charb_false, Nat.eqb_eq. split; intros H.
  - destruct H as [[H1 H2] H3]. repeat split; auto. intros K. apply charb_In in K. apply count_char_pos in K. auto.
  - destruct H as [H1 [H2 H3]]. repeat split; auto. apply count_char_0, nochar_not_In; auto.
Qed.

Lemma has_mark_spec s ms : existsb (fun p => substrb p s) ms = true <-> exists m p q, In m ms /\ s = p ++ m ++ q.
Proof.
  rewrite existsb_exists. split.
  - intros [m [H1 H2]]. exists m. revert H2. induction s as [|c s IH]; cbn.
    + rewrite orb_false_r. destruct m; [|discriminate]. intros _. exists [], []. auto.
    + rewrite orb_true_iff. intros [H|H].
      * assert (forall m s, prefixb m s = true -> exists q, s = m ++ q) as P.
        { clear. induction m as [|x m IH]; intros s; cbn; [eauto|]. destruct s as [|y s]; [discriminate|].
          rewrite andb_true_iff, aeqb_eq. intros [-> H]. apply IH in H as [q ->]. exists q. reflexivity. }
        apply P in H as [q ->]. exists [], q. auto.
      * apply IH in H as [p [q [H3 ->]]]. exists (c :: p), q. auto.
  - intros [m [p [q [H1 ->]]]]. exists m. split; auto. induction p as [|c p IH]; cbn.
    + assert (forall m q, prefixb m (m ++ q) = true) as P.
      { clear. induction m as [|x m IHm]; intros q; cbn; auto. rewrite aeqb_refl. cbn. apply IHm. }
      pose proof (P m q) as Pm. destruct (m ++ q) eqn:E; cbn; rewrite Pm; reflexivity.
    + rewrite IH. apply orb_true_r.
Qed.
Lemma for_bool_spec e :
  match test_string_for_bool e with
  | ABool b => has_logical e b
  | AStr s => s = e /\ forall b, ~ has_logical e b
  | _ => False
  end.
Proof.
  unfold test_string_for_bool. destruct (existsb (fun p => substrb p e) true_marks) eqn:E1.
  - apply has_mark_spec in E1. exact E1.
  - assert (~ exists m p q, In m true_marks /\ e = p ++ m ++ q) as N1.
    { rewrite <- has_mark_spec. congruence. }
    destruct (existsb (fun p => substrb p e) false_marks) eqn:E2.
    + apply has_mark_spec in E2. split; auto.
    + assert (~ exists m p q, In m false_marks /\ e = p ++ m ++ q) as N2.
      { rewrite <- has_mark_spec. congruence. }
      split; auto. intros [|] H; [exact (N1 H)|exact (N2 (proj1 H))].
Qed.
Lemma has_logical_det e b1 b2 : has_logical e b1 -> has_logical e b2 -> b1 = b2.
Proof. destruct b1, b2; cbn; auto; intros H1 H2; exfalso; tauto. Qed.
Lemma token_denotes_det e a b : token_denotes e a -> token_denotes e b -> a = b.
Proof.
  assert (forall z, parse_int e = Some z -> parse_float e <> None) as K.
  { intros z H. destruct (parse_int_dec e z H) as [neg [n [P _]]]. unfold parse_float. rewrite P. discriminate. }
  assert (parse_float e = None -> parse_int e = None) as K'.
  { intros H. destruct (parse_int e) as [z|] eqn:E; auto. exfalso. eapply K; eauto. }
  intros [z P|x P Q|bb P Q|P Q] H2; inversion H2; subst; try congruence;
    try (apply K' in P; congruence); try (f_equal; eapply has_logical_det; eauto; fail);
    try (exfalso; eapply Q; eauto; fail);
    repeat match goal with H : parse_float e = None |- _ => pose proof (K' H); clear H end;
    try congruence; try (exfalso; match goal with H : forall b, ~ has_logical e b |- _ => eapply H; eauto end).
Qed.

(** the one-token classifier *)
Lemma clean_element_denotes e a : clean_element e = Ok a -> token_denotes e a.
Proof.
  unfold clean_element. destruct (test_string_content e) eqn:T.
  - destruct (parse_int e) eqn:P; [|discriminate]. intros H. inversion H; subst. constructor; auto.
  - destruct (parse_float e) eqn:P; [|discriminate]. intros H. inversion H; subst. apply TD_float; auto.
    destruct (parse_int e) as [z|] eqn:Q; auto. apply content_int in Q. congruence.
  - unfold test_string_content in T. destruct (parse_float e) eqn:P.
    + destruct (_ && _); discriminate.
    + intros H. inversion H. pose proof (for_bool_spec e) as B. destruct (test_string_for_bool e); try contradiction.
      * apply TD_bool; auto.
      * destruct B as [-> B]. apply TD_str; auto.
Qed.
Lemma clean_element_total e : (exists a, clean_element e = Ok a) \/ (clean_element e = Exn ValueError /\ special e).
Proof.
  unfold clean_element, test_string_content. destruct (parse_float e) as [x|] eqn:P; [|eauto].
  destruct ((count_char "."%char e =? 0) && negb (charb "e"%char e) && negb (charb "E"%char e)) eqn:T; [|eauto].
  apply no_ptE in T as [T1 [T2 T3]]. unfold parse_float in P. destruct (parse_dec e) as [d|] eqn:D; [|discriminate].
  destruct (no_pt_special e d D T1 T2 T3) as [[z ->]|[-> H]]; eauto.
Qed.
Lemma special_value_error e : is_token e = true -> special e -> clean_element e = Exn ValueError.
Proof.
  intros Ht H. pose proof (special_not_int e H) as N. unfold clean_element.
  assert (test_string_content e = CInt) as ->; [|rewrite N; reflexivity].
  destruct H as [sg [w [E [H1 H2]]]].
  assert (strip e = e) as Es by (apply strip_nospace, is_token_nospace; auto). rewrite Es in E.
  pose proof (lower_special_nodigit w H2) as Hd.
  assert (forall c, In c w -> existsb (aeqb (lower1 c)) (lit "infatyn") = true) as Hw.
  { intros c Hc. assert (In (lower1 c) (lower w)) as K by (apply in_map; auto).
    cbn [map In] in H2. destruct H2 as [H2|[H2|[H2|[]]]]; rewrite <- H2 in K; cbn in K;
    repeat (destruct K as [K|K]; [rewrite <- K; reflexivity|]); destruct K. }
  assert (forall c, In c e -> existsb (aeqb (lower1 c)) (lit "infatyn-+") = true) as He.
  { rewrite E. intros c Hc. apply in_app_or in Hc as [Hc|Hc].
    - cbn in H1. destruct H1 as [<-|[<-|[<-|[]]]]; [destruct Hc| |]; (destruct Hc as [<-|[]]; reflexivity).
    - specialize (Hw c Hc). cbn [lit list_ascii_of_string existsb] in *. rewrite !orb_true_iff in *. tauto. }
  unfold test_string_content.
  assert ((count_char "."%char e =? 0) && negb (charb "e"%char e) && negb (charb "E"%char e) = true) as ->.
  { apply no_ptE. repeat split; intros K; apply He in K; discriminate K. }
  assert (exists d, parse_dec e = Some d) as [d D]; [|unfold parse_float; rewrite D; reflexivity].
  unfold parse_dec. rewrite Es, strip_us_none.
  2:{ apply nochar_not_In. intros K. apply He in K. discriminate K. }
  assert (take_sign w = (false, w)) as Tw.
  { destruct w as [|c w0]; auto. cbn. pose proof (Hw c (or_introl eq_refl)) as K.
    destruct (aeqb c "-"%char) eqn:K1; [apply aeqb_eq in K1; subst; discriminate K|].
    destruct (aeqb c "+"%char) eqn:K2; [apply aeqb_eq in K2; subst; discriminate K|]. auto. }
  assert (exists neg, take_sign e = (neg, w)) as [neg ->].
  { rewrite E. cbn in H1. destruct H1 as [<-|[<-|[<-|[]]]]; [|exists true; reflexivity|exists false; reflexivity].
    exists false. exact Tw. }
  unfold parse_unsigned. cbn [map In] in H2. destruct H2 as [H2|[H2|[H2|[]]]]; rewrite <- H2; cbn [orb]; eexists; reflexivity.
Qed.
Lemma denotes_clean_element e a : is_token e = true -> token_denotes e a -> ~ special e -> clean_element e = Ok a.
Proof.
  intros Ht H N. destruct (clean_element_total e) as [[b Hb]|[_ S]]; [|tauto].
  rewrite Hb. f_equal. eapply token_denotes_det; eauto using clean_element_denotes.
Qed.
