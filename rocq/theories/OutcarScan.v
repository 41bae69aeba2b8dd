(** The whole scan of an OUTCAR, from the effect of each line. *)
From Coq Require Import Ascii String List NArith ZArith Bool Lia Permutation Sorted.
From Verif Require Import PyBase PyStrLemmas PyNum UtilsModel OutcarModel OutcarSpec OutcarMatch OutcarProofs StreamConfig.
Import ListNotations.
Local Open Scope list_scope.

(** ** Facts about [last_said] *)
Lemma suffixes {A} (a b c d : list A) : a ++ b = c ++ d -> (exists m, b = m ++ d) \/ (exists m, m <> [] /\ d = m ++ b).
Proof.
  revert c. induction a as [|x a IH]; intros c H; cbn [app] in H. { left. exists c. auto. }
  destruct c as [|y c]; cbn [app] in H. { right. exists (x :: a). split; [discriminate|auto]. }
  inversion H. eauto.
Qed.
Lemma last_said_fun {V} (P : list str -> V -> Prop) ls a b : (forall t v w, P t v -> P t w -> v = w) -> last_said P ls a -> last_said P ls b -> a = b.
Proof.
  intros F. destruct a as [v|], b as [w|]; cbn [last_said]; auto.
  - intros [p [t [E [X N]]]] [p' [t' [E' [X' N']]]]. rewrite E in E'. apply suffixes in E'. destruct E' as [[m M]|[m [M1 M]]].
    + destruct m as [|x m]. { cbn in M. subst. f_equal. eauto. } exfalso. apply (N (x :: m) t' w); auto. discriminate.
    + exfalso. apply (N' m t v); auto.
  - intros [p [t [E [X _]]]] H. exfalso. eapply H; eauto.
  - intros H [p [t [E [X _]]]]. exfalso. eapply H; eauto.
Qed.
Lemma last_said_cons {V} (P : list str -> V -> Prop) l ls v : last_said P ls (Some v) -> last_said P (l :: ls) (Some v).
Proof. intros [p [t [E [X N]]]]. exists (l :: p), t. split; [cbn; congruence|]. auto. Qed.
Lemma last_said_here {V} (P : list str -> V -> Prop) l ls v : P (l :: ls) v -> last_said P ls None -> last_said P (l :: ls) (Some v).
Proof.
  intros X N. exists [], (l :: ls). split; auto. split; auto. intros more tail' w E M Y. destruct more as [|y more]; [congruence|]. inversion E. apply (N more tail' w); auto.
Qed.
Lemma last_said_skip {V} (P : list str -> V -> Prop) l ls : (forall v, ~ P (l :: ls) v) -> last_said P ls None -> last_said P (l :: ls) None.
Proof. intros X N before tail v E Y. destruct before as [|y b]; cbn [app] in E. { subst tail. exact (X _ Y). } inversion E. apply (N b tail v); auto. Qed.
Lemma last_said_nil {V} (P : list str -> V -> Prop) : (forall v, ~ P [] v) -> last_said P [] None.
Proof. intros H before tail v E X. symmetry in E. apply app_eq_nil in E as [-> ->]. exact (H _ X). Qed.

Lemma scan_last {V} (pi : odata -> V) (P : list str -> V -> Prop) : (forall v, ~ P [] v) ->
  (forall l rest d d', step (l :: rest) d l = Ok d' -> sets (P (l :: rest)) (pi d) (pi d')) ->
  forall ls d d', scan ls d = Ok d' -> last_said P ls (Some (pi d')) \/ (last_said P ls None /\ pi d' = pi d).
Proof.
  intros P0 ST. induction ls as [|l rest IH]; intros d d' H; cbn [scan] in H.
  - apply Ok_inj' in H. subst. right. split; auto. apply last_said_nil. auto.
  - apply bind_ok in H as [d1 [H1 H2]]. apply ST in H1. apply IH in H2. destruct H2 as [H2|[H2 E]].
    + left. apply last_said_cons. auto.
    + destruct H1 as [H1|[H1 E1]].
      * left. rewrite E. apply last_said_here; auto.
      * right. split; [apply last_said_skip; auto|congruence].
Qed.
(** option-valued variables, initially None *)
Lemma scan_last_opt {V} (pi : odata -> option V) (P : list str -> V -> Prop) : (forall v, ~ P [] v) ->
  (forall l rest d d', step (l :: rest) d l = Ok d' -> sets (lift (P (l :: rest))) (pi d) (pi d')) ->
  forall ls d d', pi d = None -> scan ls d = Ok d' -> last_said P ls (pi d').
Proof.
  intros P0 ST ls d d' D H. apply (scan_last pi (fun t => lift (P t))) in H; auto; [|intros v [w [_ X]]; exact (P0 _ X)].
  destruct H as [[p [t [E [[v [X Y]] N]]]]|[H E]].
  - rewrite X. exists p, t. split; auto. split; auto. intros m t' w M1 M2 M3. apply (N m t' (Some w)); auto. exists w. auto.
  - rewrite E, D. intros b t v X Y. apply (H b t (Some v)); auto. exists v. auto.
Qed.
Lemma scan_all {V} (pi : odata -> list V) (P : list str -> list str -> list V -> Prop) (Inv : list str -> odata -> Prop) :
  (forall before l rest d d', Inv before d -> step (l :: rest) d l = Ok d' -> Inv (before ++ [l]) d' /\ exists vs, P before (l :: rest) vs /\ pi d' = pi d ++ vs) ->
  forall ls before d d', Inv before d -> scan ls d = Ok d' -> exists vs, all_said P before ls vs /\ pi d' = pi d ++ vs.
Proof.
  intros ST. induction ls as [|l rest IH]; intros before d d' I0 H; cbn [scan] in H.
  - apply Ok_inj' in H. subst. exists []. split; [constructor|rewrite app_nil_r; auto].
  - apply bind_ok in H as [d1 [H1 H2]]. apply (ST before) in H1; auto. destruct H1 as [I1 [vs [V1 E1]]]. apply (IH (before ++ [l])) in H2; auto. destruct H2 as [ws [W1 E2]].
    exists (vs ++ ws). split; [constructor; auto|]. rewrite E2, E1, app_assoc. auto.
Qed.

(** ** One line *)
Definition bump (x : Z) (s : zdict Z) : zdict Z := match zget x s with Some n => zset x (n + 1)%Z s | None => zset x 1%Z s end.
Record step_facts (l : str) (rest : list str) (d d' : odata) : Prop := {
  sf_nsw : sets (lift (param "NSW" (l :: rest))) (od_nsw d) (od_nsw d');
  sf_nelm : sets (lift (param "NELM" (l :: rest))) (od_nelm d) (od_nelm d');
  sf_ibrion : sets (param "IBRION" (l :: rest)) (ov_ibrion d) (ov_ibrion d');
  sf_nbands : sets (lift (nbands_said (l :: rest))) (od_nbands d) (od_nbands d');
  sf_finished : od_finished d' = true <-> od_finished d = true \/ plain (fun l => has l "timing and accounting informations") l;
  sf_iter : sets (lift (iterates (l :: rest))) (ov_iter d) (ov_iter d');
  sf_steps : (exists x y, says_iteration l (x, y) /\ ov_steps d' = bump x (ov_steps d)) \/ (~ is_marker l /\ ov_steps d' = ov_steps d);
  sf_config : ov_config d' = (if startswith (strip l) (header Dynamic) && negb (is_some (iteration l)) then CfgDynamic else if startswith (strip l) (header Static) && negb (is_some (iteration l)) then CfgStatic else ov_config d);
  sf_symmetry : forall s, exists a b c1 c2, part s (od_operations d') = part s (od_operations d) ++ a /\ part s (od_symmetrized d') = part s (od_symmetrized d) ++ b /\
     part s (od_original d') = part s (od_original d) ++ c1 ++ c2 /\
     maybe (fun z => ~ is_marker l /\ ov_config d' = cfg s /\ begins l "Subroutine GETGRP returns" /\ exists w, nth_error (split_ws l) 4 = Some w /\ parse_int w = Some z) a /\
     maybe (fun t => ~ is_marker l /\ ov_config d' = cfg s /\ begins l "Routine SETGRP: Setting up the symmetry group for a" /\ exists n, nth_error (l :: rest) 1 = Some n /\ t = lower (strip n)) b /\
     maybe (fun c => ~ is_marker l /\ ov_config d' = cfg s /\ pricel_said l (nth_error (l :: rest) 1) c) c1 /\ maybe (fun c => ~ is_marker l /\ ov_config d' = cfg s /\ supercell_said l c) c2;
  sf_elastic : forall k h, In (k, h) elastic_keys -> sets (fun o => exists t, o = Some (Some t) /\ elastic h (l :: rest) t) (dget (lit k) (od_elastic d)) (dget (lit k) (od_elastic d'));
  sf_nonsym : dget (lit "non-symmetrized") (od_elastic d') = dget (lit "non-symmetrized") (od_elastic d);
  sf_mag : forall p, In p projs -> (exists t, mag_table p (l :: rest) t /\ after_table t (sphere_of p (od_sphere d)) (sphere_of p (od_sphere d'))) \/
     ((forall t, ~ mag_table p (l :: rest) t) /\ sphere_of p (od_sphere d') = sphere_of p (od_sphere d));
  sf_projs : dkeys (od_sphere d') = dkeys (od_sphere d);
  sf_full : sets (lift (cell_moment (l :: rest))) (od_full_cell d) (od_full_cell d') }.
Lemma sets_same {V} (P Q : V -> Prop) old new : (forall v, P v <-> Q v) -> sets P old new -> sets Q old new.
Proof. intros E [H|[H1 H2]]; [left; apply E; auto|right; split; auto]. intros v X. apply E in X. exact (H1 _ X). Qed.
Lemma maybe_same {V} (P Q : V -> Prop) vs : (forall v, P v <-> Q v) -> maybe P vs -> maybe Q vs.
Proof. intros E [[v [H1 H2]]|[H1 H2]]; [left; exists v; split; auto; apply E; auto|right; split; auto]. intros v X. apply E in X. exact (H1 _ X). Qed.
Lemma lift_same {V} (P Q : V -> Prop) : (forall v, P v <-> Q v) -> forall o, lift P o <-> lift Q o.
Proof. intros E o. split; intros [v [H1 H2]]; exists v; split; auto; apply E; auto. Qed.
Lemma step_ok l rest d d' : step (l :: rest) d l = Ok d' -> step_facts l rest d d'.
Proof.
  unfold step. destruct (iteration l) as [[a b]|] eqn:EI.
  - intros H. apply bind_ok in H as [x [X H]]. apply bind_ok in H as [y [Y H]]. apply Ok_inj' in H. subst d'. apply to_int_ok in X, Y.
    pose proof (iteration_says _ _ _ _ _ EI X Y) as SI. pose proof (says_marker _ _ SI) as M.
    assert (forall (V : Type) (P : V -> Prop) (o : V), (forall v, P v -> plain (fun _ => True) l) -> sets P o o) as K.
    { intros V P o HP. right. split; auto. intros v Pv. apply HP in Pv. destruct Pv as [N _]. exact (N M). }
    unfold count_iteration. constructor; cbn [od_nsw od_nelm od_nbands od_finished ov_ibrion od_elastic od_operations od_original od_symmetrized od_sphere od_full_cell ov_config ov_iter ov_steps].
    + apply K. intros v [z [_ [N _]]]. split; auto.
    + apply K. intros v [z [_ [N _]]]. split; auto.
    + apply K. intros v [N _]. split; auto.
    + apply K. intros v [z [_ [N _]]]. split; auto.
    + split; [auto|]. intros [?|[N _]]; auto; contradiction.
    + left. exists (x, y). split; auto.
    + left. exists x, y. split; auto.
    + rewrite EI. cbn [is_some negb]. rewrite !andb_false_r. auto.
    + intros s. exists [], [], [], []. rewrite !app_nil_r. repeat split; auto; apply maybe_none; intros v [N _]; contradiction.
    + intros k h _. apply K. intros v [t [_ [[N _] _]]]. split; auto.
    + auto.
    + intros p _. right. split; auto. intros t [[N _] _]. contradiction.
    + auto.
    + apply K. intros v [z [_ [N _]]]. split; auto.
  - intros H. apply iteration_none in EI as NM. change (py_nth (l :: rest) 1) with (of_option IndexError (nth_error (l :: rest) 1)) in H.
    apply bind_ok in H as [d1 [H1 H]]. apply bind_ok in H as [d2 [H2 H]]. apply bind_ok in H as [d3 [H3 H4]].
    apply step_params_ok in H1. apply step_symmetry_ok in H2. apply step_elastic_ok in H3. apply step_magnetization_ok in H4.
    destruct H1 as (P1 & P2 & P3 & P4 & P5 & P6 & P7 & P8 & P9 & P10 & P11 & P12 & P13 & P14).
    destruct H2 as (Q1 & Q2 & Q3 & Q4 & Q5 & Q6 & Q7 & Q8 & Q9 & Q10 & Q11 & Q12).
    destruct H3 as (R1 & R2 & R3 & R4 & R5 & R6 & R7 & R8 & R9 & R10 & R11 & R12 & R13 & R14 & R15).
    destruct H4 as (T1 & T2 & T3 & T4 & T5 & T6 & T7 & T8 & T9 & T10 & T11 & T12 & T13 & T14 & T15).
    assert (forall P : Prop, P <-> ~ is_marker l /\ P) as W by (intros; tauto).
    constructor.
    + rewrite T8, R8, Q6. eapply sets_same; [|exact P1]. apply lift_same. intros v. apply W.
    + rewrite T9, R9, Q7. eapply sets_same; [|exact P2]. apply lift_same. intros v. apply W.
    + rewrite T13, R13, Q10. eapply sets_same; [|exact P3]. intros v. apply W.
    + rewrite T10, R10, Q8. eapply sets_same; [|exact P4]. apply lift_same. intros v. apply W.
    + rewrite T11, R11, Q9, P5. unfold plain. tauto.
    + rewrite T14, R14, Q11, P13. right. split; auto. intros v [xy [_ X]]. apply says_marker in X. contradiction.
    + right. split; auto. congruence.
    + rewrite EI. cbn [is_some negb]. rewrite !andb_true_r. rewrite T12, R12, Q1, P12. auto.
    + intros s. rewrite T12, R12. destruct (Q2 s) as (a & b & c1 & c2 & A1 & A2 & A3 & A4 & A5 & A6 & A7). exists a, b, c1, c2.
      rewrite T5, R3, A1, P7, T7, R5, A2, P9, T6, R4, A3, P8. repeat (split; [reflexivity|]).
      split; [eapply maybe_same; [|exact A4]; intros; apply W|]. split; [eapply maybe_same; [|exact A5]; intros; apply W|].
      split; [eapply maybe_same; [|exact A6]; intros; apply W|eapply maybe_same; [|exact A7]; intros; apply W].
    + intros k h K. rewrite T4, <- P6, <- Q3. eapply sets_same; [|exact (R1 k h K)]. intros o. unfold elastic, plain, head_line. split; intros [t X]; exists t; tauto.
    + rewrite T4, R2, Q3, P6. auto.
    + intros p K. rewrite <- P10, <- Q4, <- R6. destruct (T1 p K) as [[t [X1 [X2 X3]]]|[X1 X2]].
      * left. exists t. split; auto. split; auto. split; auto.
      * right. split; auto. intros t [[_ X3] _]. contradiction.
    + congruence.
    + rewrite <- P11, <- Q5, <- R7. eapply sets_same; [|exact T3]. apply lift_same. intros v. apply W.
Qed.
