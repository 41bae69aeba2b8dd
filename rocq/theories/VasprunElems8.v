(** Runs of the event parser over band velocities. *)
From Coq Require Import Ascii String List NArith ZArith Bool Lia.
From Verif Require Import PyBase PyStrLemmas PyNum UtilsModel LineModel OutcarModel ChgcarModel StreamConfig VasprunTypes VasprunXml VasprunModel VasprunEvents VasprunSpec VasprunSteps VasprunDoc VasprunRun VasprunElems VasprunElems4 VasprunElems5.
Import ListNotations.
Local Open Scope string_scope.
Local Open Scope list_scope.

Notation FV := (4 + 2 ^ 16)%N.
(** ** The k-points *)
Lemma ev_vel_kpoints kbb p rows x s : Forall (is_row "v") rows -> ready FV s ->
  run_events kbb (events p (Elem "varray" [("name", "kpointlist")] x rows)) s = let* m := convert2D 3 rows in Ok (out_ (set_p_kpoints_specific (Some m)) s).
Proof.
  intros R (E & D & D2). rewrite run_elem. cbn [handle].
  assert (step kbb true true p (Elem "varray" [("name", "kpointlist")] x rows) s = Ok (set_s_flags (FV + 2 ^ 10) s)) as -> by (at_flags s E; ev; reflexivity). cbn [bind].
  rewrite (push_rows kbb _ (FV + 2 ^ 10) "v") by (auto; push_done). cbn [bind handle].
  change (s_data (set_s_flags (FV + 2 ^ 10) s)) with (s_data s). rewrite D. cbn [app].
  open_state s. flags_in E. cbn [s_data s_data2] in D, D2. subst. ev. destruct (convert2D 3 rows); reflexivity.
Qed.
Lemma ev_vel_weights kbb p rows x s : Forall (is_row "v") rows -> ready FV s ->
  run_events kbb (events p (Elem "varray" [("name", "weights")] x rows)) s = let* m := convert1D rows in Ok (out_ (set_p_kpointsw_specific (Some m)) s).
Proof.
  intros R (E & D & D2). rewrite run_elem. cbn [handle].
  assert (step kbb true true p (Elem "varray" [("name", "weights")] x rows) s = Ok (set_s_flags (FV + 2 ^ 11) s)) as -> by (at_flags s E; ev; reflexivity). cbn [bind].
  rewrite (push_rows kbb _ (FV + 2 ^ 11) "v") by (auto; push_done). cbn [bind handle].
  change (s_data (set_s_flags (FV + 2 ^ 11) s)) with (s_data s). rewrite D. cbn [app].
  open_state s. flags_in E. cbn [s_data s_data2] in D, D2. subst. ev. destruct (convert1D rows); reflexivity.
Qed.
(** ** The rows *)
Lemma vel_kset1 kbb p rows k s : is_kset rows k -> s_flags s = (FV + 2 ^ 17)%N -> run_events kbb (events p k) s = Ok (set_s_data (s_data s ++ rows) s).
Proof.
  intros [(a & x & -> & A) R] E. rewrite run_elem. cbn [handle].
  assert (In (FV + 2 ^ 17)%N [4 + 2 ^ 12 + 2 ^ 14; 4 + 2 ^ 12 + 2 ^ 15; 4 + 2 ^ 25 + 2 ^ 12 + 2 ^ 14; 4 + 2 ^ 25 + 2 ^ 12 + 2 ^ 15; 4 + 2 ^ 19; 4 + 2 ^ 16 + 2 ^ 17; 4 + 2 ^ 16 + 2 ^ 18]%N) as I by (cbn; tauto).
  rewrite (set_quiet _ _ _ _ _ _ _ _ _ I A E). cbn [bind]. rewrite (push_rows kbb _ (FV + 2 ^ 17) "r") by (auto; push_done). cbn [bind handle]. apply (set_quiet _ _ _ _ _ _ _ _ _ I A). auto.
Qed.
Lemma vel_kset2 kbb p rows k s : is_kset rows k -> s_flags s = (FV + 2 ^ 18)%N -> run_events kbb (events p k) s = Ok (set_s_data2 (s_data2 s ++ rows) s).
Proof.
  intros [(a & x & -> & A) R] E. rewrite run_elem. cbn [handle].
  assert (In (FV + 2 ^ 18)%N [4 + 2 ^ 12 + 2 ^ 14; 4 + 2 ^ 12 + 2 ^ 15; 4 + 2 ^ 25 + 2 ^ 12 + 2 ^ 14; 4 + 2 ^ 25 + 2 ^ 12 + 2 ^ 15; 4 + 2 ^ 19; 4 + 2 ^ 16 + 2 ^ 17; 4 + 2 ^ 16 + 2 ^ 18]%N) as I by (cbn; tauto).
  rewrite (set_quiet _ _ _ _ _ _ _ _ _ I A E). cbn [bind]. rewrite (push2_rows kbb _ (FV + 2 ^ 18) "r") by (auto; push_done). cbn [bind handle]. apply (set_quiet _ _ _ _ _ _ _ _ _ I A). auto.
Qed.
Lemma vel_spin1 kbb p rs ks e s : is_set "spin 1" ks e -> Forall2 is_kset rs ks -> s_flags s = FV -> run_events kbb (events p e) s = Ok (set_s_data (s_data s ++ concat rs) s).
Proof.
  intros (x & ->) F E. rewrite run_elem. cbn [handle].
  match goal with |- context [step kbb true true p ?e s] => assert (step kbb true true p e s = Ok (set_s_flags (FV + 2 ^ 17) s)) as -> by (clear F; at_flags s E; ev; reflexivity) end. cbn [bind].
  rewrite (pushes kbb _ (FV + 2 ^ 17) is_kset) with (rs := rs); auto; [|intros; eapply vel_kset1; eauto]. cbn [bind handle].
  change (s_data (set_s_flags (FV + 2 ^ 17) s)) with (s_data s). generalize (concat rs) as l. intros l. clear F. at_flags s E; ev; reflexivity.
Qed.
Lemma vel_spin2 kbb p rs ks e s : is_set "spin 2" ks e -> Forall2 is_kset rs ks -> s_flags s = FV -> run_events kbb (events p e) s = Ok (set_s_data2 (s_data2 s ++ concat rs) s).
Proof.
  intros (x & ->) F E. rewrite run_elem. cbn [handle].
  match goal with |- context [step kbb true true p ?e s] => assert (step kbb true true p e s = Ok (set_s_flags (FV + 2 ^ 18) s)) as -> by (clear F; at_flags s E; ev; reflexivity) end. cbn [bind].
  rewrite (pushes2 kbb _ (FV + 2 ^ 18) is_kset) with (rs := rs); auto; [|intros; eapply vel_kset2; eauto]. cbn [bind handle].
  change (s_data2 (set_s_flags (FV + 2 ^ 18) s)) with (s_data2 s). generalize (concat rs) as l. intros l. clear F. at_flags s E; ev; reflexivity.
Qed.
Lemma vel_spins kbb p k1 k2 r1 r2 spins s : per_spin "spin 1" "spin 2" k1 k2 spins -> Forall2 is_kset r1 k1 -> Forall2 is_kset r2 k2 -> s_flags s = FV ->
  run_events kbb (flat_map (events p) spins) s = Ok (set_s_data2 (s_data2 s ++ concat r2) (set_s_data (s_data s ++ concat r1) s)).
Proof.
  intros P F1 F2 E. inversion P as [ks e HS|ks ls e f HS HT NE]; subst.
  - inversion F2; subst. rewrite run_flat_one, (vel_spin1 kbb p r1 k1) by auto. cbn [concat]. rewrite app_nil_r. destruct s; auto.
  - rewrite run_flat_cons, (vel_spin1 kbb p r1 k1) by auto. cbn [bind]. rewrite run_flat_one, (vel_spin2 kbb p r2 k2); auto.
Qed.
Lemma ev_vel_rows kbb p rows1 rows2 e s : is_eigenvalues rows1 rows2 e -> ready FV s -> run_events kbb (events p e) s = Ok (set_s_data2 rows2 (set_s_data rows1 s)).
Proof.
  intros (arr & st & spins & k1 & k2 & r1 & r2 & (x & ->) & HA & HS & HP & F1 & F2 & C1 & C2 & NE) (E & D & D2). rewrite run_elem. cbn [handle].
  match goal with |- context [step kbb true true p ?e s] => assert (step kbb true true p e s = Ok s) as -> by (clear -E; at_flags s E; ev; reflexivity) end. cbn [bind].
  assert (In FV heading_flags) as I by (cbn; tauto).
  rewrite run_flat_one. rewrite (ev_array kbb _ FV st arr _ (set_s_data2 rows2 (set_s_data rows1 s))); auto; [|discriminate|].
  - cbn [bind handle]. clear -E. at_flags s E; ev; reflexivity.
  - intros q. apply (ev_plain_set kbb q FV spins); auto. intros q'. rewrite (vel_spins kbb q' k1 k2 r1 r2) by auto. rewrite C1, C2, D, D2. reflexivity.
Qed.
Definition vel_effect (kbb : bool) (ks ws rows1 rows2 : list xml) (s : est) : res est :=
  let* m := convert2D 3 ks in let* w := convert1D ws in
  let* v := extract_eigenvelocities kbb (p_ispin (s_out s)) (p_nbands (s_out s)) rows1 (second rows2) (length m) in
  Ok (out_ (fun o => set_p_velocities (Some v) (set_p_kpointsw_specific (Some w) (set_p_kpoints_specific (Some m) o))) s).
Lemma ev_velocities kbb p ks ws rows1 rows2 e s : is_velocities ks ws rows1 rows2 e -> ready 4 s -> run_events kbb (events p e) s = vel_effect kbb ks ws rows1 rows2 s.
Proof.
  intros (a & x & k & kl & kw & ve & -> & (y & ->) & ((z1 & ->) & RK) & ((z2 & ->) & RW) & _ & _ & HE) R. rewrite run_elem. cbn [handle].
  match goal with |- context [step kbb true true p ?e s] => assert (step kbb true true p e s = Ok (set_s_flags FV s)) as -> end.
  { destruct R as (E & _ & _); clear -E; at_flags s E. blocks. unfold attr. cbn [attrs]. destruct (assoc "name" a) as [n|]; destruct (assoc "comment" a) as [w|]; cbv [opt_is]; try destruct (String.eqb "interpolated" w); ev; reflexivity. }
  cbn [bind]. pose proof (ready_flags 4 FV s R) as R1. rewrite run_flat_cons, run_elem. cbn [handle].
  match goal with |- context [step kbb true true ?q ?e (set_s_flags FV s)] => assert (step kbb true true q e (set_s_flags FV s) = Ok (set_s_flags FV s)) as -> by (clear; destruct s; ev; reflexivity) end.
  cbn [bind]. rewrite run_flat_cons, (ev_vel_kpoints kbb _ _ _ _ RK R1). unfold vel_effect. destruct (convert2D 3 ks) as [m|]; cbn [bind]; auto.
  rewrite run_flat_one, (ev_vel_weights kbb _ _ _ _ RW). 2: { destruct s; exact R1. } destruct (convert1D ws) as [w|]; cbn [bind handle]; auto.
  match goal with |- context [step kbb false true None ?e ?u] => assert (step kbb false true None e u = Ok u) as -> by (clear; destruct s; ev; reflexivity) end. cbn [bind].
  rewrite run_flat_one, (ev_vel_rows kbb _ rows1 rows2 ve _ HE). 2: { destruct s; exact R1. } cbn [bind handle].
  destruct R as (E & D & D2). clear -E D D2. at_flags s E. cbn [s_data s_data2] in D, D2. subst d1 d2.
  blocks. unfold attr. cbn [attrs]. destruct (assoc "name" a) as [n|]; destruct (assoc "comment" a) as [w'|]; cbv [opt_is]; try destruct (String.eqb "interpolated" w'); ev;
    cbn [olen];
    match goal with |- context [extract_eigenvelocities ?a ?b ?c ?d ?f ?g] => destruct (extract_eigenvelocities a b c d f g) end; reflexivity.
Qed.
