(** Run status and lists of an OUTCAR, from what its lines say. *)
From Coq Require Import Ascii String List NArith ZArith Bool Lia Permutation Sorted.
From Verif Require Import PyBase PyStrLemmas PyNum UtilsModel OutcarModel OutcarSpec OutcarMatch OutcarProofs OutcarScan StreamConfig.
Import ListNotations.
Local Open Scope list_scope.

(** ** Dictionaries keyed by integers *)
Definition zkeys {V} (d : zdict V) : list Z := map fst d.
Lemma zget_zset_same {V} k (v : V) d : zget k (zset k v d) = Some v.
Proof. induction d as [|[k' v'] d IH]; cbn [zset zget]. { rewrite Z.eqb_refl. auto. } destruct (k =? k')%Z eqn:E; cbn [zget]; rewrite E; auto. Qed.
Lemma zget_zset_other {V} k k2 (v : V) d : k2 <> k -> zget k2 (zset k v d) = zget k2 d.
Proof.
  intros N. apply Z.eqb_neq in N. induction d as [|[k' v'] d IH]; cbn [zset zget]. { rewrite N. auto. }
  destruct (k =? k')%Z eqn:E; cbn [zget]. { apply Z.eqb_eq in E. subst k'. rewrite N. auto. } destruct (k2 =? k')%Z; auto.
Qed.
Lemma zget_None {V} k (d : zdict V) : zget k d = None <-> ~ In k (zkeys d).
Proof.
  induction d as [|[k' v] d IH]; cbn [zget zkeys map fst In]. { tauto. } destruct (k =? k')%Z eqn:E.
  - apply Z.eqb_eq in E. split; [discriminate|]. intros H. exfalso. apply H. auto.
  - apply Z.eqb_neq in E. rewrite IH. unfold zkeys. split; intros H; [intros [X|X]; [congruence|auto]|tauto].
Qed.
Lemma zget_In {V} k (v : V) d : zget k d = Some v -> In (k, v) d.
Proof. induction d as [|[k' v'] d IH]; cbn [zget In]; [discriminate|]. destruct (k =? k')%Z eqn:E; intros H; [apply Z.eqb_eq in E; left; congruence|right; auto]. Qed.
Lemma In_zget {V} k (v : V) d : NoDup (zkeys d) -> In (k, v) d -> zget k d = Some v.
Proof.
  induction d as [|[k' v'] d IH]; cbn [zget In zkeys map fst]; intros ND H; [contradiction|]. inversion ND as [|? ? NI ND']. subst. destruct H as [H|H].
  - inversion H. rewrite Z.eqb_refl. auto.
  - destruct (k =? k')%Z eqn:E; auto. apply Z.eqb_eq in E. subst k'. exfalso. apply NI. apply (in_map fst) in H. exact H.
Qed.
Lemma zset_NoDup {V} k (v : V) d : NoDup (zkeys d) -> NoDup (zkeys (zset k v d)).
Proof.
  assert (forall x, In x (zkeys (zset k v d)) -> x = k \/ In x (zkeys d)) as K.
  { intros x. destruct (Z.eq_dec x k); auto. right. intros. destruct (zget x d) eqn:E. { apply zget_In in E. apply (in_map fst) in E. exact E. }
    exfalso. assert (zget x (zset k v d) = None) by (rewrite zget_zset_other; auto). apply zget_None in H0. contradiction. }
  induction d as [|[k' v'] d IH]; cbn [zset zkeys map fst] in *; intros ND. { constructor; auto. }
  inversion ND as [|? ? NI ND']. subst. destruct (k =? k')%Z eqn:E; cbn [map fst]; [constructor; auto|]. apply Z.eqb_neq in E.
  constructor.
  - intros X. assert (In k' (zkeys (zset k v d))) as X' by exact X. destruct (zget k' d) eqn:G. { apply zget_In in G. apply (in_map fst) in G. contradiction. }
    assert (zget k' (zset k v d) = None) as Y by (rewrite zget_zset_other; auto). apply zget_None in Y. contradiction.
  - apply IH; auto. intros x X. destruct (Z.eq_dec x k); auto. right. destruct (zget x d) eqn:G. { apply zget_In in G. apply (in_map fst) in G. exact G. }
    assert (zget x (zset k v d) = None) as Y by (rewrite zget_zset_other; auto). apply zget_None in Y. contradiction.
Qed.
(** sorting *)
Lemma zinsert_perm x l : Permutation (zinsert x l) (x :: l).
Proof. induction l as [|y l IH]; cbn [zinsert]; auto. destruct (zle x y); auto. rewrite IH. apply perm_swap. Qed.
Lemma zsort_perm l : Permutation (zsort l) l.
Proof. induction l as [|x l IH]; cbn [zsort fold_right]; auto. rewrite zinsert_perm. constructor. auto. Qed.
Definition kle (a b : Z * Z) : Prop := (fst a <= fst b)%Z.
Lemma zinsert_sorted x l : StronglySorted kle l -> StronglySorted kle (zinsert x l).
Proof.
  induction l as [|y l IH]; intros H; cbn [zinsert]. { constructor; auto. }
  inversion H as [|? ? H1 H2]. subst. unfold zle. destruct (fst x <=? fst y)%Z eqn:E.
  - constructor; auto. constructor; [apply Z.leb_le; auto|]. apply Z.leb_le in E. eapply Forall_impl; [|exact H2]. unfold kle. intros; lia.
  - apply Z.leb_gt in E. constructor; auto. rewrite Forall_forall in *. intros z Z1. apply (Permutation_in _ (zinsert_perm x l)) in Z1. destruct Z1 as [<-|Z1]; auto. unfold kle. lia.
Qed.
Lemma zsort_sorted l : StronglySorted kle (zsort l).
Proof. induction l as [|x l IH]; cbn [zsort fold_right]; [constructor|]. apply zinsert_sorted. auto. Qed.
Lemma removelast_map {A B} (f : A -> B) l : removelast (map f l) = map f (removelast l).
Proof. induction l as [|a l IH]; auto. destruct l as [|b l]; auto. change (map f (a :: b :: l)) with (f a :: map f (b :: l)). cbn [removelast] in *. destruct (map f (b :: l)) eqn:E; [discriminate|]. cbn [map]. f_equal. exact IH. Qed.
Lemma removelast_sorted l : StronglySorted kle l -> NoDup (map fst l) -> forall a, In a (removelast l) <-> In a l /\ exists b, In b l /\ (fst a < fst b)%Z.
Proof.
  induction l as [|x l IH]; intros H ND a; [split; [intros []|intros [[] _]]|]. inversion H as [|? ? H1 H2]. inversion ND as [|? ? N1 N2]. subst.
  destruct l as [|y l]. { cbn [removelast In]. split; [tauto|]. intros [[<-|[]] [b [[<-|[]] L]]]. lia. }
  change (removelast (x :: y :: l)) with (x :: removelast (y :: l)). cbn [In] in *. rewrite (IH H1 N2 a). clear IH. split.
  - intros [<-|[A [b [B L]]]].
    + split; auto. exists y. split; auto. rewrite Forall_forall in H2. specialize (H2 y (or_introl eq_refl)). unfold kle in H2. assert (fst x <> fst y); [|lia]. intros X. apply N1. left. auto.
    + split; [tauto|]. exists b. tauto.
  - intros [[<-|A] [b [B L]]]; auto. right. split; auto. exists b. split; auto. destruct B as [<-|B]; auto. exfalso. rewrite Forall_forall in H2. specialize (H2 a A). unfold kle in H2. lia.
Qed.

(** ** Iteration markers *)
Lemma says_fun l xy xy' : says_iteration l xy -> says_iteration l xy' -> xy = xy'.
Proof.
  destruct xy as [x y], xy' as [x' y']. intros A B. apply says_iteration_inv in A as [a [b [A1 [A2 A3]]]]. apply says_iteration_inv in B as [a' [b' [B1 [B2 B3]]]].
  rewrite A1 in B1. inversion B1. subst. congruence.
Qed.
Lemma occurrences_fun P ls n m : occurrences P ls n -> occurrences P ls m -> n = m.
Proof. intros H. revert m. induction H; intros m G; inversion G; subst; auto; contradiction. Qed.
Definition cnt (x : Z) (s : zdict Z) : Z := match zget x s with Some n => n | None => 0%Z end.
Lemma bump_cnt x y s : cnt y (bump x s) = (cnt y s + (if (x =? y)%Z then 1 else 0))%Z.
Proof.
  unfold bump, cnt. destruct (x =? y)%Z eqn:E.
  - apply Z.eqb_eq in E. subst y. destruct (zget x s) eqn:G; rewrite zget_zset_same; lia.
  - apply Z.eqb_neq in E. destruct (zget x s); rewrite zget_zset_other by auto; destruct (zget y s); lia.
Qed.
Lemma bump_keys x y s : zget y (bump x s) <> None <-> x = y \/ zget y s <> None.
Proof.
  unfold bump. destruct (Z.eq_dec x y) as [<-|N].
  - destruct (zget x s); rewrite zget_zset_same; split; intros; auto; discriminate.
  - destruct (zget x s); rewrite zget_zset_other by auto; tauto.
Qed.
Lemma bump_NoDup x s : NoDup (zkeys s) -> NoDup (zkeys (bump x s)).
Proof. unfold bump. destruct (zget x s); apply zset_NoDup. Qed.
Lemma scan_steps ls d d' : scan ls d = Ok d' ->
  (forall x, exists n, elec_steps ls x n /\ cnt x (ov_steps d') = (cnt x (ov_steps d) + Z.of_nat n)%Z) /\
  (forall x, zget x (ov_steps d') <> None <-> zget x (ov_steps d) <> None \/ ionic_step ls x) /\
  (NoDup (zkeys (ov_steps d)) -> NoDup (zkeys (ov_steps d'))).
Proof.
  revert d. induction ls as [|l rest IH]; intros d H; cbn [scan] in H.
  - apply Ok_inj' in H. subst. split; [|split; auto].
    + intros x. exists 0. split; [constructor|lia].
    + intros x. unfold ionic_step. rewrite Exists_nil. tauto.
  - apply bind_ok in H as [d1 [H1 H2]]. apply step_ok in H1. pose proof (sf_steps _ _ _ _ H1) as S1. clear H1. destruct (IH _ H2) as [A [B C]]. clear IH H2.
    destruct S1 as [[x0 [y0 [SI E]]]|[NM E]].
    + split; [|split].
      * intros x. destruct (A x) as [n [N1 N2]]. rewrite E, bump_cnt in N2. destruct (x0 =? x)%Z eqn:EX.
        -- apply Z.eqb_eq in EX. subst x0. exists (S n). split; [constructor; eauto|lia].
        -- apply Z.eqb_neq in EX. exists n. split; [constructor; auto|lia]. intros [y Y]. pose proof (says_fun _ _ _ SI Y). congruence.
      * intros x. rewrite B, E, bump_keys. unfold ionic_step. rewrite Exists_cons. split.
        -- intros [[->|X]|X]; eauto.
        -- intros [X|[[y Y]|X]]; auto. pose proof (says_fun _ _ _ SI Y) as Q. inversion Q. auto.
      * intros ND. apply C. rewrite E. apply bump_NoDup. auto.
    + rewrite E in *. split; [|split; auto].
      * intros x. destruct (A x) as [n [N1 N2]]. exists n. split; auto. constructor; auto. intros [y Y]. apply says_marker in Y. contradiction.
      * intros x. rewrite B. unfold ionic_step. rewrite Exists_cons. split; [tauto|]. intros [X|[[y Y]|X]]; auto. apply says_marker in Y. contradiction.
Qed.
Lemma scan_finished ls d d' : scan ls d = Ok d' -> (od_finished d' = true <-> od_finished d = true \/ run_finished ls).
Proof.
  revert d. unfold run_finished. induction ls as [|l rest IH]; intros d H; cbn [scan] in H.
  - apply Ok_inj' in H. subst. rewrite Exists_nil. tauto.
  - apply bind_ok in H as [d1 [H1 H2]]. apply step_ok in H1. rewrite (IH _ H2), (sf_finished _ _ _ _ H1), Exists_cons. tauto.
Qed.
(** recorded counts and what the lines say *)
Lemma steps_breached ls d' nelm : scan ls odata0 = Ok d' -> forall x, (exists n, In (x, n) (ov_steps d') /\ (nelm <= n)%Z) <-> breached ls nelm x.
Proof.
  intros H x. destruct (scan_steps _ _ _ H) as [A [B C]]. assert (NoDup (zkeys (ov_steps d'))) as ND by (apply C; constructor). specialize (A x). specialize (B x). destruct A as [n [N1 N2]].
  change (cnt x (ov_steps odata0)) with 0%Z in N2. change (zget x (ov_steps odata0)) with (@None Z) in B. unfold breached. split.
  - intros [n0 [I1 L]]. apply (In_zget _ _ _ ND) in I1. split; [destruct (proj1 B) as [X|X]; congruence|]. exists n. split; auto. unfold cnt in N2. rewrite I1 in N2. lia.
  - intros [I1 [m [M1 M2]]]. pose proof (occurrences_fun _ _ _ _ N1 M1). subst m. destruct (zget x (ov_steps d')) as [n0|] eqn:G; [|exfalso; apply (proj2 B); auto]. exists n0. split; [apply zget_In; auto|]. unfold cnt in N2. rewrite G in N2. lia.
Qed.
Lemma steps_ionic ls d' : scan ls odata0 = Ok d' -> forall x, (exists n, In (x, n) (ov_steps d')) <-> ionic_step ls x.
Proof.
  intros H x. destruct (scan_steps _ _ _ H) as [A [B C]]. assert (NoDup (zkeys (ov_steps d'))) as ND by (apply C; constructor). specialize (B x).
  change (zget x (ov_steps odata0)) with (@None Z) in B. split.
  - intros [n I1]. apply (In_zget _ _ _ ND) in I1. destruct (proj1 B) as [X|X]; try congruence.
  - intros I1. destruct (zget x (ov_steps d')) as [n0|] eqn:G; [|exfalso; apply (proj2 B); auto]. exists n0. apply zget_In; auto.
Qed.
Lemma forallb_id {A} (f : A -> bool) l : forallb (fun b => b) (map f l) = true <-> forall a, In a l -> f a = true.
Proof. rewrite forallb_forall. split; intros H a X; [apply H, in_map; auto|]. apply in_map_iff in X as [b [<- X]]. auto. Qed.
Lemma existsb_id {A} (f : A -> bool) l : existsb (fun b => b) (map f l) = true <-> exists a, In a l /\ f a = true.
Proof.
  rewrite existsb_exists. split.
  - intros [b [X E]]. apply in_map_iff in X as [a [<- X]]. eauto.
  - intros [a [X E]]. exists (f a). split; auto. apply in_map. auto.
Qed.
Lemma sorted_NoDup l : NoDup (zkeys l) -> NoDup (map fst (zsort l)).
Proof. intros H. eapply Permutation_NoDup; [|exact H]. apply Permutation_map. apply Permutation_sym, zsort_perm. Qed.

Record status_facts (ls : list str) (s : status) : Prop := {
  st_it : last_said iterates ls (Some (rs_last s));
  st_nelm : exists nelm, rs_nelm s = Some nelm /\ last_said (param "NELM") ls (Some nelm) /\
    (rs_electronic s = true <-> run_finished ls /\ (snd (rs_last s) < nelm)%Z) /\
    (rs_contains s = true <-> exists x, breached ls nelm x) /\
    (rs_consistent s = true <-> (run_finished ls /\ forall x, ionic_step ls x -> breached ls nelm x) \/
       (~ run_finished ls /\ (1 < fst (rs_last s))%Z /\ forall x x', ionic_step ls x -> ionic_step ls x' -> (x < x')%Z -> breached ls nelm x));
  st_nsw : last_said (param "NSW") ls (rs_nsw s);
  st_nbands : last_said nbands_said ls (rs_nbands s);
  st_finished : rs_finished s = true <-> run_finished ls;
  st_ionic : exists ib, (last_said (param "IBRION") ls (Some ib) \/ last_said (param "IBRION") ls None /\ ib = (-1)%Z) /\
    (run_finished ls -> (0 < ib)%Z -> rs_nsw s <> None) /\
    rs_ionic s = if negb (rs_finished s) then Some false else if (ib <=? 0)%Z then None else
      match rs_nsw s with
      | None => None
      | Some nsw => if (fst (rs_last s) <? nsw)%Z then Some true else if (nsw <=? 1)%Z then None else Some false
      end }.
Lemma param_nil k v : ~ param k [] v. Proof. intros []. Qed.
Lemma run_status_ok ls d s : scan ls odata0 = Ok d -> run_status d = Ok s -> status_facts ls s.
Proof.
  intros H R. unfold run_status in R. apply bind_ok in R as [iter [R1 R]]. apply bind_ok in R as [ion [R2 R]]. apply bind_ok in R as [nelm [R3 R]]. apply Ok_inj' in R. subst s.
  assert (ov_iter d = Some iter) as EI by (destruct (ov_iter d); inversion R1; auto). assert (od_nelm d = Some nelm) as EN by (destruct (od_nelm d); inversion R3; auto). clear R1 R3.
  assert (od_finished d = true <-> run_finished ls) as F. { rewrite (scan_finished _ _ _ H). cbn. split; [intros [X|X]; [discriminate|auto]|auto]. }
  assert (od_finished d = false <-> ~ run_finished ls) as F'. { rewrite <- F. destruct (od_finished d); split; congruence. }
  assert (last_said (param "NSW") ls (od_nsw d)) as NSW. { apply (scan_last_opt od_nsw (param "NSW") (param_nil _)) in H; auto. intros. apply (sf_nsw _ _ _ _ (step_ok _ _ _ _ H0)). }
  assert (last_said (param "NELM") ls (od_nelm d)) as NELM. { apply (scan_last_opt od_nelm (param "NELM") (param_nil _)) in H; auto. intros. apply (sf_nelm _ _ _ _ (step_ok _ _ _ _ H0)). }
  assert (last_said nbands_said ls (od_nbands d)) as NB. { apply (scan_last_opt od_nbands nbands_said (fun v X => X)) in H; auto. intros. apply (sf_nbands _ _ _ _ (step_ok _ _ _ _ H0)). }
  assert (last_said iterates ls (ov_iter d)) as IT. { apply (scan_last_opt ov_iter iterates (fun v X => X)) in H; auto. intros. apply (sf_iter _ _ _ _ (step_ok _ _ _ _ H0)). }
  assert (last_said (param "IBRION") ls (Some (ov_ibrion d)) \/ last_said (param "IBRION") ls None /\ ov_ibrion d = (-1)%Z) as IB.
  { apply (scan_last ov_ibrion (param "IBRION") (param_nil _)) in H; auto. intros. apply (sf_ibrion _ _ _ _ (step_ok _ _ _ _ H0)). }
  assert (forall x n, In (x, n) (zsort (ov_steps d)) <-> In (x, n) (ov_steps d)) as SI. { intros. split; apply Permutation_in; [|apply Permutation_sym]; apply zsort_perm. }
  assert (NoDup (map fst (zsort (ov_steps d)))) as ND. { apply sorted_NoDup. apply (scan_steps _ _ _ H). constructor. }
  assert (NoDup (zkeys (ov_steps d))) as ND'. { apply (scan_steps _ _ _ H). constructor. }
  constructor; cbn [rs_last rs_nelm rs_electronic rs_contains rs_consistent rs_nsw rs_nbands rs_finished rs_ionic].
  - rewrite <- EI. auto.
  - exists nelm. split; auto. split; [congruence|]. split; [rewrite andb_true_iff, F, Z.ltb_lt; reflexivity|]. split.
    + rewrite existsb_id. split.
      * intros [[x n] [I1 L]]. apply SI in I1. exists x. apply (steps_breached _ _ _ H). exists n. split; auto. apply Z.leb_le. auto.
      * intros [x X]. apply (steps_breached _ _ _ H) in X as [n [I1 L]]. exists (x, n). split; [apply SI; auto|]. apply Z.leb_le. auto.
    + rewrite orb_true_iff, !andb_true_iff, negb_true_iff, F, F', Z.ltb_lt, removelast_map, !forallb_id. split.
      * intros [[A1 A2]|[[A1 A2] A3]]; [left|right]; (split; auto).
        -- intros x X. apply (steps_ionic _ _ H) in X as [n X]. apply (steps_breached _ _ _ H). exists n. split; auto. apply SI in X. apply A2 in X. apply Z.leb_le. auto.
        -- split; auto. intros x x' X X' L. apply (steps_ionic _ _ H) in X as [n X], X' as [n' X']. apply (steps_breached _ _ _ H). exists n. split; auto.
           assert (In (x, n) (removelast (zsort (ov_steps d)))) as K. { apply removelast_sorted; [apply zsort_sorted|auto|]. split; [apply SI; auto|]. exists (x', n'). split; [apply SI; auto|auto]. }
           apply A2 in K. apply Z.leb_le. auto.
      * intros [[A1 A2]|[A1 [A3 A2]]]; [left|right]; (split; auto).
        -- intros [x n] X. apply SI in X. assert (ionic_step ls x) as X' by (apply (steps_ionic _ _ H); eauto). apply A2 in X'. apply (steps_breached _ _ _ H) in X' as [m [M1 M2]].
           apply (In_zget _ _ _ ND') in X, M1. assert (m = n) by congruence. subst m. apply Z.leb_le. auto.
        -- split; auto. intros [x n] X. apply removelast_sorted in X as [X [[x' n'] [X' L]]]; [|apply zsort_sorted|auto]. cbn [fst] in L. apply SI in X, X'.
           assert (breached ls nelm x) as B. { apply (A2 x x'); auto; apply (steps_ionic _ _ H); eauto. }
           apply (steps_breached _ _ _ H) in B as [m [M1 M2]]. apply (In_zget _ _ _ ND') in X, M1. assert (m = n) by congruence. subst m. apply Z.leb_le. auto.
  - auto.
  - auto.
  - auto.
  - exists (ov_ibrion d). split; auto. destruct (od_finished d) eqn:EF; cbn [negb].
    + unfold ionic in R2. destruct (ov_ibrion d <=? 0)%Z eqn:EB; [apply Ok_inj' in R2; split; auto; apply Z.leb_le in EB; lia|].
      apply bind_ok in R2 as [nsw [N1 N2]]. assert (od_nsw d = Some nsw) as -> by (destruct (od_nsw d); inversion N1; auto). split; [discriminate|]. apply Ok_inj' in N2. subst ion.
      destruct (fst iter <? nsw)%Z eqn:E1; auto. destruct (fst iter =? nsw)%Z eqn:E2; cbn [andb]; auto. destruct (1 <? nsw)%Z eqn:E3; auto.
      assert ((nsw <=? 1)%Z = false) as -> by lia. auto.
    + apply Ok_inj' in R2. split; auto. intros X. apply F in X. discriminate.
Qed.
