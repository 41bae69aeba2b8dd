(** The matchers of the OUTCAR model agree with the text patterns. *)
From Coq Require Import Ascii String List NArith ZArith Bool Lia.
From Verif Require Import PyBase PyStrLemmas PyNum UtilsModel OutcarModel OutcarSpec StreamConfig KpointsCodes.
Import ListNotations.
Local Open Scope list_scope.

Lemma span_app f l : l = fst (span f l) ++ snd (span f l).
Proof. induction l as [|c l IH]; cbn [span]; auto. destruct (f c); cbn [fst snd app]; auto. destruct (span f l). cbn [fst snd app] in *. congruence. Qed.
Lemma span_all f l : forallb f (fst (span f l)) = true.
Proof. induction l as [|c l IH]; cbn [span]; auto. destruct (f c) eqn:E; auto. destruct (span f l). cbn [fst forallb] in *. rewrite E. auto. Qed.
Definition stops (f : ascii -> bool) (l : str) : Prop := match l with [] => True | c :: _ => f c = false end.
Lemma span_stops f l : stops f (snd (span f l)).
Proof. induction l as [|c l IH]; cbn [span]; [exact Logic.I|]. destruct (f c) eqn:E; [|exact E]. destruct (span f l). auto. Qed.
Lemma span_exact f a b : forallb f a = true -> stops f b -> span f (a ++ b) = (a, b).
Proof.
  induction a as [|c a IH]; cbn [app span forallb]; intros A B. { destruct b as [|c b]; auto. cbn [span]. cbn [stops] in B. rewrite B. auto. }
  apply andb_true_iff in A as [A1 A2]. rewrite A1. rewrite (IH A2 B). auto.
Qed.
Lemma spaces_all n : forallb is_sp (spaces n) = true.
Proof. induction n; cbn [spaces repeat forallb]; auto. Qed.
Lemma all_spaces l : forallb is_sp l = true -> l = spaces (length l).
Proof. induction l as [|c l IH]; cbn [forallb length spaces repeat]; auto. intros H. apply andb_true_iff in H as [H1 H2]. apply aeqb_eq in H1. subst c. f_equal. auto. Qed.
Lemma after_some p l r : after p l = Some r <-> l = p ++ r.
Proof.
  revert l. induction p as [|x p IH]; intros l; cbn [after app]. { split; intros H; congruence. }
  destruct l as [|y l]; [split; discriminate|]. destruct (aeqb x y) eqn:E.
  - apply aeqb_eq in E. subst y. rewrite IH. split; intros H; congruence.
  - apply aeqb_neq in E. split; intros H; congruence.
Qed.
Lemma digit_not_sp c : is_digit c = true -> is_sp c = false.
Proof.
  intros H. assert (implb (is_digit c) (negb (is_sp c)) = true) as K by (apply (forall_ascii (fun c => implb (is_digit c) (negb (is_sp c)))); vm_compute; reflexivity).
  rewrite H in K. cbn [implb] in K. apply negb_true_iff in K. exact K.
Qed.
Lemma stops_digits a r : digits a -> stops is_sp (a ++ r).
Proof. intros [N D]. destruct a as [|c a]; [congruence|]. cbn [app stops forallb] in *. apply andb_true_iff in D as [D _]. apply digit_not_sp. auto. Qed.
Lemma iteration_here_ok l a b : iteration_here l = Some (a, b) <-> marker_at l [] a b.
Proof.
  unfold iteration_here, marker_at. cbn [app]. split.
  - destruct (after (lit "Iteration") l) as [l1|] eqn:E1; [|discriminate]. apply after_some in E1.
    pose proof (span_app is_sp l1) as S1. pose proof (span_all is_sp l1) as A1. destruct (span is_sp l1) as [n l1']. cbn [fst snd] in *.
    pose proof (span_app is_digit l1') as S2. pose proof (span_all is_digit l1') as A2. destruct (span is_digit l1') as [da l2]. cbn [fst snd] in *.
    destruct da as [|c0 da]; [discriminate|]. destruct (after (lit "(") l2) as [l3|] eqn:E2; [|discriminate]. apply after_some in E2.
    pose proof (span_app is_sp l3) as S3. pose proof (span_all is_sp l3) as A3. destruct (span is_sp l3) as [m l3']. cbn [fst snd] in *.
    pose proof (span_app is_digit l3') as S4. pose proof (span_all is_digit l3') as A4. destruct (span is_digit l3') as [db l4]. cbn [fst snd] in *.
    destruct db as [|c1 db]; [discriminate|]. destruct (after (lit ")") l4) as [q|] eqn:E3; [|discriminate]. apply after_some in E3. intros H. inversion H. subst a b. clear H.
    exists (length n), (length m), q. split; [|split; split; auto; discriminate].
    rewrite <- (all_spaces n A1), <- (all_spaces m A3). rewrite E1, S1, S2, E2, S3, S4, E3. reflexivity.
  - intros [n [m [q [E [Da Db]]]]]. subst l.
    assert (after (lit "Iteration") (lit "Iteration" ++ spaces n ++ a ++ lit "(" ++ spaces m ++ b ++ lit ")" ++ q) = Some (spaces n ++ a ++ lit "(" ++ spaces m ++ b ++ lit ")" ++ q)) as -> by (apply after_some; auto).
    rewrite (span_exact is_sp _ _ (spaces_all n) (stops_digits a _ Da)). cbn [snd].
    rewrite (span_exact is_digit a (lit "(" ++ spaces m ++ b ++ lit ")" ++ q)); [|apply Da|reflexivity].
    destruct a as [|c0 a]; [destruct Da; congruence|].
    assert (after (lit "(") (lit "(" ++ spaces m ++ b ++ lit ")" ++ q) = Some (spaces m ++ b ++ lit ")" ++ q)) as -> by (apply after_some; auto).
    rewrite (span_exact is_sp _ _ (spaces_all m) (stops_digits b _ Db)). cbn [snd].
    rewrite (span_exact is_digit b (lit ")" ++ q)); [|apply Db|reflexivity].
    destruct b as [|c1 b]; [destruct Db; congruence|]. assert (after (lit ")") (lit ")" ++ q) = Some q) as -> by (apply after_some; auto). reflexivity.
Qed.
Lemma marker_cons c l p a b : marker_at (c :: l) (c :: p) a b <-> marker_at l p a b.
Proof. unfold marker_at. cbn [app]. split; intros [n [m [q [E D]]]]; exists n, m, q; split; auto; congruence. Qed.
Lemma marker_cons_inv l x p a b : marker_at l (x :: p) a b -> exists r, l = x :: r /\ marker_at r p a b.
Proof. intros [n [m [q [E D]]]]. cbn [app] in E. eexists. split; [exact E|]. exists n, m, q. split; auto. Qed.
Lemma iteration_none l : iteration l = None <-> ~ is_marker l.
Proof.
  unfold is_marker. induction l as [|c l IH].
  - split; [|reflexivity]. intros _ [p [a [b M]]]. destruct p as [|x p].
    + apply iteration_here_ok in M. vm_compute in M. discriminate.
    + apply marker_cons_inv in M as [r [M _]]. discriminate.
  - cbn [iteration]. destruct (iteration_here (c :: l)) as [[a b]|] eqn:E.
    + split; [discriminate|]. intros H. exfalso. apply H. exists [], a, b. apply iteration_here_ok. auto.
    + rewrite IH. split; intros H [p [a [b M]]].
      * destruct p as [|x p]. { apply iteration_here_ok in M. congruence. }
        apply marker_cons_inv in M as [r [M1 M2]]. apply H. inversion M1. subst. eauto.
      * apply H. exists (c :: p), a, b. apply marker_cons. auto.
Qed.
Definition first_marker (l a b : str) : Prop := exists p, marker_at l p a b /\ forall p' a' b', marker_at l p' a' b' -> length p <= length p'.
Lemma iteration_some l a b : iteration l = Some (a, b) <-> first_marker l a b.
Proof.
  unfold first_marker. induction l as [|c l IH].
  - split; [intros H; vm_compute in H; discriminate|]. intros [p [M _]]. exfalso. assert (~ is_marker []) as K by (apply iteration_none; reflexivity). apply K. exists p, a, b. auto.
  - cbn [iteration]. destruct (iteration_here (c :: l)) as [[a0 b0]|] eqn:E.
    + apply iteration_here_ok in E. split.
      * intros H. inversion H. subst. exists []. split; auto. intros. cbn [length]. lia.
      * intros [p [M1 M2]]. specialize (M2 _ _ _ E). destruct p; [|cbn [length] in M2; lia]. apply iteration_here_ok in M1, E. congruence.
    + rewrite IH. split; intros [p [M1 M2]].
      * exists (c :: p). split; [apply marker_cons; auto|]. intros p' a' b' M'. destruct p' as [|x p']. { apply iteration_here_ok in M'. congruence. }
        apply marker_cons_inv in M' as [r [M3 M4]]. inversion M3. subst. apply M2 in M4. cbn [length]. lia.
      * destruct p as [|x p]. { apply iteration_here_ok in M1. congruence. }
        pose proof (marker_cons_inv _ _ _ _ _ M1) as [r [M3 M4]]. inversion M3. subst. exists p. split; auto. intros p' a' b' M'. apply (marker_cons x) in M'. apply M2 in M'. cbn [length] in M'. lia.
Qed.
(** a line's marker *)
Lemma iteration_says l a b x y : iteration l = Some (a, b) -> parse_int a = Some x -> parse_int b = Some y -> says_iteration l (x, y).
Proof. intros H X Y. apply iteration_some in H as [p [M1 M2]]. exists p, a, b. auto. Qed.
Lemma says_iteration_inv l x y : says_iteration l (x, y) -> exists a b, iteration l = Some (a, b) /\ parse_int a = Some x /\ parse_int b = Some y.
Proof. intros [p [a [b [M [X [Y F]]]]]]. exists a, b. split; auto. apply iteration_some. exists p. auto. Qed.
Lemma says_marker l xy : says_iteration l xy -> is_marker l.
Proof. intros [p [a [b [M _]]]]. exists p, a, b. auto. Qed.

(** ** Parameters *)
Lemma int_char_same c : int_char c = is_int_char c.
Proof. reflexivity. Qed.
Lemma int_char_not_sp c : is_int_char c = true -> is_sp c = false.
Proof.
  intros H. assert (implb (is_int_char c) (negb (is_sp c)) = true) as K by (apply (forall_ascii (fun c => implb (is_int_char c) (negb (is_sp c)))); vm_compute; reflexivity).
  rewrite H in K. cbn [implb] in K. apply negb_true_iff in K. exact K.
Qed.
Definition good_key (k : str) : Prop := match k with [] => False | c :: _ => is_sp c = false end.
Lemma param_match_ok key l t : good_key key ->
  (param_match key l = Some t <->
   exists n m k r, l = spaces (S n) ++ key ++ spaces m ++ lit "=" ++ spaces k ++ t ++ r /\ t <> [] /\ forallb int_char t = true /\ stops int_char r).
Proof.
  intros G. unfold param_match. split.
  - pose proof (span_app is_sp l) as S1. pose proof (span_all is_sp l) as A1. destruct (span is_sp l) as [n l1]. cbn [fst snd] in *.
    destruct n as [|c0 n]; [discriminate|]. destruct (after key l1) as [l2|] eqn:E1; [|discriminate]. apply after_some in E1.
    pose proof (span_app is_sp l2) as S2. pose proof (span_all is_sp l2) as A2. destruct (span is_sp l2) as [m l2']. cbn [fst snd] in *.
    destruct (after (lit "=") l2') as [l3|] eqn:E2; [|discriminate]. apply after_some in E2.
    pose proof (span_app is_sp l3) as S3. pose proof (span_all is_sp l3) as A3. destruct (span is_sp l3) as [k l3']. cbn [fst snd] in *.
    pose proof (span_app is_int_char l3') as S4. pose proof (span_all is_int_char l3') as A4. pose proof (span_stops is_int_char l3') as P4. destruct (span is_int_char l3') as [t' r]. cbn [fst snd] in *.
    destruct t' as [|c t']; [discriminate|]. intros H. inversion H. subst t. clear H.
    exists (length n), (length m), (length k), r. split; [|split; [discriminate|split; auto]].
    rewrite <- (all_spaces m A2), <- (all_spaces k A3). change (S (length n)) with (length (c0 :: n)). rewrite <- (all_spaces (c0 :: n) A1). rewrite S1, E1, S2, E2, S3, S4. reflexivity.
  - intros [n [m [k [r [E [T [D P]]]]]]]. subst l.
    assert (forall x, stops is_sp (key ++ x)) as K by (intros x; destruct key; [destruct G|exact G]).
    rewrite (span_exact is_sp _ _ (spaces_all (S n)) (K _)). change (spaces (S n)) with (sp :: spaces n). cbv iota.
    assert (after key (key ++ spaces m ++ lit "=" ++ spaces k ++ t ++ r) = Some (spaces m ++ lit "=" ++ spaces k ++ t ++ r)) as -> by (apply after_some; auto).
    rewrite (span_exact is_sp (spaces m) (lit "=" ++ spaces k ++ t ++ r)); [|apply spaces_all|reflexivity]. cbn [snd].
    assert (after (lit "=") (lit "=" ++ spaces k ++ t ++ r) = Some (spaces k ++ t ++ r)) as -> by (apply after_some; auto).
    assert (stops is_sp (t ++ r)) as K2. { destruct t as [|c t]; [congruence|]. cbn [app stops forallb] in *. apply andb_true_iff in D as [D _]. apply int_char_not_sp. auto. }
    rewrite (span_exact is_sp (spaces k) (t ++ r) (spaces_all k) K2). cbn [snd].
    rewrite (span_exact is_int_char t r D P). cbn [fst]. destruct t; [congruence|auto].
Qed.
Lemma match_param_ok key old l v : good_key (lit key) -> match_integer_param (lit key) old l = Ok v ->
  (exists z, v = Some z /\ assigns key l z) \/ (v = old /\ forall z, ~ assigns key l z).
Proof.
  intros G. unfold match_integer_param. destruct (param_match (lit key) l) as [t|] eqn:E.
  - intros H. apply bind_ok in H as [z [Z H]]. apply Ok_inj' in H. subst v. left. exists z. split; auto. unfold to_int in Z. destruct (parse_int t) eqn:P; [|discriminate]. apply Ok_inj' in Z. subst.
    destruct (proj1 (param_match_ok _ _ _ G) E) as [n [m [k [r [X1 [X2 [X3 X4]]]]]]]. exists n, m, k, t, r. auto.
  - intros H. apply Ok_inj' in H. right. split; auto. intros z [n [m [k [t [r [X1 [X2 [X3 [X4 X5]]]]]]]]].
    assert (param_match (lit key) l = Some t) as K by (apply (param_match_ok _ _ _ G); exists n, m, k, r; auto). congruence.
Qed.
Lemma assigns_fun key l z z' : good_key (lit key) -> assigns key l z -> assigns key l z' -> z = z'.
Proof.
  intros G [n [m [k [t [r [X1 [X2 [X3 [X4 X5]]]]]]]]] [n' [m' [k' [t' [r' [Y1 [Y2 [Y3 [Y4 Y5]]]]]]]]].
  assert (param_match (lit key) l = Some t) as K by (apply (param_match_ok _ _ _ G); exists n, m, k, r; auto).
  assert (param_match (lit key) l = Some t') as K' by (apply (param_match_ok _ _ _ G); exists n', m', k', r'; auto). congruence.
Qed.

(** ** Separators *)
Lemma contains_has l p : contains l p = true <-> has l p.
Proof. unfold contains, has. apply substrb_spec. Qed.
Lemma prefixb_after d l : prefixb d l = true <-> exists r, l = d ++ r.
Proof.
  revert l. induction d as [|x d IH]; intros l; cbn [prefixb app]. { split; eauto. }
  destruct l as [|y l]. { split; [discriminate|]. intros [r H]. discriminate. }
  rewrite andb_true_iff, aeqb_eq, IH. split.
  - intros [-> [r ->]]. eauto.
  - intros [r H]. inversion H. eauto.
Qed.
Lemma starts_begins l p : startswith (strip l) p = true <-> begins l p.
Proof. unfold startswith, begins. apply prefixb_after. Qed.
Lemma past_spec d l : (exists p r, l = p ++ d ++ r) -> exists p, l = p ++ d ++ past d l /\ forall p' r', l = p' ++ d ++ r' -> length p <= length p'.
Proof.
  induction l as [|c l IH]; intros [p [r H]].
  - destruct p; [|discriminate]. cbn [app] in H. destruct d; [|discriminate]. exists []. split; auto. intros. cbn [length]. lia.
  - cbn [past]. destruct (after d (c :: l)) as [q|] eqn:E.
    + apply after_some in E. exists []. split; auto. intros. cbn [length]. lia.
    + destruct p as [|x p]. { cbn [app] in H. assert (after d (c :: l) = Some r) by (apply after_some; auto). congruence. }
      assert (l = p ++ d ++ r) as HL by (inversion H; auto). destruct IH as [p0 [P1 P2]]; [eauto|]. exists (c :: p0). split; [cbn [app]; congruence|].
      intros p' r' X. destruct p' as [|y p']. { cbn [app] in X. assert (after d (c :: l) = Some r') by (apply after_some; auto). congruence. }
      inversion X as [[X1 X2]]. apply P2 in X2. cbn [length]. lia.
Qed.
Lemma upto_spec d l : d <> [] -> exists r, l = upto d l ++ r /\
  (r = [] /\ (forall p' r', upto d l <> p' ++ d ++ r') \/ (exists r0, r = d ++ r0) /\ forall p' r', l = p' ++ d ++ r' -> length (upto d l) <= length p').
Proof.
  intros N. induction l as [|c l IH].
  - exists []. cbn [upto]. destruct (prefixb d []); (split; [auto|]; left; split; auto; intros p' r' H; destruct p'; [destruct d; [congruence|discriminate]|discriminate]).
  - cbn [upto]. destruct (prefixb d (c :: l)) eqn:E.
    + apply prefixb_after in E as [r E]. exists (c :: l). split; auto. right. split; eauto. intros. cbn [length]. lia.
    + destruct IH as [r [H1 H2]]. assert (forall r', c :: l <> d ++ r') as K. { intros r' X. assert (prefixb d (c :: l) = true) by (apply prefixb_after; eauto). congruence. }
      exists r. split; [cbn [app]; f_equal; exact H1|]. destruct H2 as [[H2 H3]|[H2 H3]].
      * left. split; auto. intros p' r' X. destruct p' as [|y p']. { cbn [app] in X. apply (K r'). rewrite H2, app_nil_r in H1. rewrite H1. exact X. }
        inversion X as [[X1 X2]]. exact (H3 _ _ X2).
      * right. split; auto. intros p' r' X. destruct p' as [|y p']. { exfalso. exact (K _ X). } assert (l = p' ++ d ++ r') as X2 by (inversion X; auto). specialize (H3 _ _ X2). cbn [length]. clear -H3. apply le_n_S. exact H3.
Qed.
Lemma split_second_ok d l : d <> [] -> (exists p r, l = p ++ d ++ r) -> between d l (split_second d l).
Proof.
  intros N H. unfold split_second. destruct (past_spec d l H) as [p [P1 P2]]. destruct (upto_spec d (past d l) N) as [r [U1 U2]].
  exists p, r. split; [rewrite <- U1; exact P1|]. split; auto. destruct U2 as [[U2 U3]|[U2 U3]]; [left|right]; split; auto.
  rewrite <- U1. auto.
Qed.
Lemma between_fun d l t t' : d <> [] -> between d l t -> between d l t' -> t = t'.
Proof.
  intros N [p [r [E [F L]]]] [p' [r' [E' [F' L']]]].
  assert (length p = length p') as EL. { pose proof (F _ _ E'). pose proof (F' _ _ E). lia. }
  assert (t ++ r = t' ++ r') as EQ.
  { rewrite E in E'. assert (forall (a b x y : str), length a = length b -> a ++ x = b ++ y -> x = y) as K.
    { induction a as [|c a IH]; intros [|c' b] x y HL HE; try discriminate; auto. inversion HL. inversion HE. eauto. }
    apply K in E'; auto. apply app_inv_head in E'. auto. }
  assert (length t = length t') as ET.
  { destruct L as [[L1 L2]|[[r0 L1] L2]], L' as [[L1' L2']|[[r0' L1'] L2']].
    - subst. rewrite !app_nil_r in EQ. congruence.
    - exfalso. subst r r'. rewrite app_nil_r in EQ. exact (L2 _ _ EQ).
    - exfalso. subst r r'. rewrite app_nil_r in EQ. exact (L2' _ _ (eq_sym EQ)).
    - subst r r'. pose proof (L2 _ _ EQ). pose proof (L2' _ _ (eq_sym EQ)). lia. }
  assert (forall (a b x y : str), length a = length b -> a ++ x = b ++ y -> a = b) as K.
  { induction a as [|c a IH]; intros [|c' b] x y HL HE; try discriminate; auto. inversion HL. inversion HE. f_equal. eauto. }
  eapply K; eauto.
Qed.
