(** Runs of the event parser over eigenvalues and projectors. *)
From Coq Require Import Ascii String List NArith ZArith Bool Lia.
From Verif Require Import PyBase PyStrLemmas PyNum UtilsModel LineModel OutcarModel ChgcarModel StreamConfig VasprunTypes VasprunXml VasprunModel VasprunEvents VasprunSpec VasprunSteps VasprunDoc VasprunRun VasprunElems VasprunElems4.
Import ListNotations.
Local Open Scope string_scope.
Local Open Scope list_scope.

Definition base_flags (B : N) : Prop := B = 4%N \/ B = (4 + 2 ^ 25)%N.
Ltac bases H := destruct H as [->| ->].
Ltac flag_state := match goal with |- context [step _ ?st true ?p ?e ?s = _] => idtac end.
Lemma r_row kbb B p t s : base_flags B -> s_flags s = (B + 2 ^ 12 + 2 ^ 14)%N -> run_events kbb (events p (Elem "r" [] t [])) s = Ok (push (Elem "r" [] t []) s).
Proof. intros H E. bases H; at_flags s E; ev; reflexivity. Qed.
Lemma r_row2 kbb B p t s : base_flags B -> s_flags s = (B + 2 ^ 12 + 2 ^ 15)%N -> run_events kbb (events p (Elem "r" [] t [])) s = Ok (push2 (Elem "r" [] t []) s).
Proof. intros H E. bases H; at_flags s E; ev; reflexivity. Qed.
Lemma eig_kset1 kbb p B rows k s : base_flags B -> is_kset rows k -> s_flags s = (B + 2 ^ 12 + 2 ^ 14)%N -> run_events kbb (events p k) s = Ok (set_s_data (s_data s ++ rows) s).
Proof.
  intros H [(a & x & -> & A) R] E. rewrite run_elem. cbn [handle].
  assert (In (B + 2 ^ 12 + 2 ^ 14)%N [4 + 2 ^ 12 + 2 ^ 14; 4 + 2 ^ 12 + 2 ^ 15; 4 + 2 ^ 25 + 2 ^ 12 + 2 ^ 14; 4 + 2 ^ 25 + 2 ^ 12 + 2 ^ 15; 4 + 2 ^ 19; 4 + 2 ^ 16 + 2 ^ 17; 4 + 2 ^ 16 + 2 ^ 18]%N) as I by (bases H; cbn; tauto).
  rewrite (set_quiet _ _ _ _ _ _ _ _ _ I A E). cbn [bind]. rewrite (push_rows kbb _ (B + 2 ^ 12 + 2 ^ 14) "r") by (auto; intros; eapply r_row; eauto). cbn [bind handle]. apply (set_quiet _ _ _ _ _ _ _ _ _ I A). auto.
Qed.
Lemma eig_kset2 kbb p B rows k s : base_flags B -> is_kset rows k -> s_flags s = (B + 2 ^ 12 + 2 ^ 15)%N -> run_events kbb (events p k) s = Ok (set_s_data2 (s_data2 s ++ rows) s).
Proof.
  intros H [(a & x & -> & A) R] E. rewrite run_elem. cbn [handle].
  assert (In (B + 2 ^ 12 + 2 ^ 15)%N [4 + 2 ^ 12 + 2 ^ 14; 4 + 2 ^ 12 + 2 ^ 15; 4 + 2 ^ 25 + 2 ^ 12 + 2 ^ 14; 4 + 2 ^ 25 + 2 ^ 12 + 2 ^ 15; 4 + 2 ^ 19; 4 + 2 ^ 16 + 2 ^ 17; 4 + 2 ^ 16 + 2 ^ 18]%N) as I by (bases H; cbn; tauto).
  rewrite (set_quiet _ _ _ _ _ _ _ _ _ I A E). cbn [bind]. rewrite (push2_rows kbb _ (B + 2 ^ 12 + 2 ^ 15) "r") by (auto; intros; eapply r_row2; eauto). cbn [bind handle]. apply (set_quiet _ _ _ _ _ _ _ _ _ I A). auto.
Qed.
Lemma eig_spin1 kbb p B rs ks e s : base_flags B -> is_set "spin 1" ks e -> Forall2 is_kset rs ks -> s_flags s = (B + 2 ^ 12)%N -> run_events kbb (events p e) s = Ok (set_s_data (s_data s ++ concat rs) s).
Proof.
  intros H (x & ->) F E. rewrite run_elem. cbn [handle].
  match goal with |- context [step kbb true true p ?e s] => assert (step kbb true true p e s = Ok (set_s_flags (B + 2 ^ 12 + 2 ^ 14) s)) as -> by (clear F; bases H; at_flags s E; ev; reflexivity) end. cbn [bind].
  rewrite (pushes kbb _ (B + 2 ^ 12 + 2 ^ 14) is_kset) with (rs := rs); auto; [|intros; eapply eig_kset1; eauto]. cbn [bind handle].
  change (s_data (set_s_flags (B + 2 ^ 12 + 2 ^ 14) s)) with (s_data s). generalize (concat rs) as l. intros l. clear F. bases H; at_flags s E; ev; reflexivity.
Qed.
Lemma eig_spin2 kbb p B rs ks e s : base_flags B -> is_set "spin 2" ks e -> Forall2 is_kset rs ks -> s_flags s = (B + 2 ^ 12)%N -> run_events kbb (events p e) s = Ok (set_s_data2 (s_data2 s ++ concat rs) s).
Proof.
  intros H (x & ->) F E. rewrite run_elem. cbn [handle].
  match goal with |- context [step kbb true true p ?e s] => assert (step kbb true true p e s = Ok (set_s_flags (B + 2 ^ 12 + 2 ^ 15) s)) as -> by (clear F; bases H; at_flags s E; ev; reflexivity) end. cbn [bind].
  rewrite (pushes2 kbb _ (B + 2 ^ 12 + 2 ^ 15) is_kset) with (rs := rs); auto; [|intros; eapply eig_kset2; eauto]. cbn [bind handle].
  change (s_data2 (set_s_flags (B + 2 ^ 12 + 2 ^ 15) s)) with (s_data2 s). generalize (concat rs) as l. intros l. clear F. bases H; at_flags s E; ev; reflexivity.
Qed.
Lemma eig_spins kbb p B k1 k2 r1 r2 spins s : base_flags B -> per_spin "spin 1" "spin 2" k1 k2 spins -> Forall2 is_kset r1 k1 -> Forall2 is_kset r2 k2 -> s_flags s = (B + 2 ^ 12)%N ->
  run_events kbb (flat_map (events p) spins) s = Ok (set_s_data2 (s_data2 s ++ concat r2) (set_s_data (s_data s ++ concat r1) s)).
Proof.
  intros H P F1 F2 E. inversion P as [ks e HS|ks ls e f HS HT NE]; subst.
  - inversion F2; subst. rewrite run_flat_one, (eig_spin1 kbb p B r1 k1) by auto. cbn [concat]. rewrite app_nil_r. destruct s; auto.
  - rewrite run_flat_cons, (eig_spin1 kbb p B r1 k1) by auto. cbn [bind]. rewrite run_flat_one, (eig_spin2 kbb p B r2 k2); auto.
Qed.
(** the last part of an element *)
Lemma ev_array kbb p F body arr s s' : In F heading_flags -> F <> (4 + 2 ^ 25 + 2 ^ 34)%N -> is_array body arr -> s_flags s = F -> s_flags s' = F -> (forall q, run_events kbb (events q body) s = Ok s') -> run_events kbb (events p arr) s = Ok s'.
Proof.
  intros I N (heads & HH & (x & ->)) E E' R. rewrite run_elem. cbn [handle]. rewrite (bare_start _ _ _ _ F); auto; [|eexists _, _; left; reflexivity]. cbn [bind].
  rewrite run_flat_app, (headings kbb _ F) by auto. cbn [bind]. rewrite run_flat_one, R. cbn [bind handle]. apply (array_end _ _ _ _ _ F); auto.
Qed.
Lemma ev_plain_set kbb p F ks e s s' : In F heading_flags -> plain "set" ks e -> s_flags s = F -> s_flags s' = F -> (forall q, run_events kbb (flat_map (events q) ks) s = Ok s') -> run_events kbb (events p e) s = Ok s'.
Proof. intros I (x & ->) E E' R. rewrite run_elem. cbn [handle]. rewrite (bare_start _ _ _ _ F); auto; [|eexists _, _; right; reflexivity]. cbn [bind]. rewrite R. cbn [bind handle]. apply (set_end _ _ _ _ _ F); auto. Qed.
Definition eig_effect (kbb : bool) (rows1 rows2 : list xml) (s : est) : res est :=
  let* n := olen (p_kpoints (s_out s)) in
  let* (v, o) := extract_eigenvalues kbb (p_ispin (s_out s)) (p_nbands (s_out s)) rows1 (second rows2) n in
  Ok (out_ (fun p => set_p_occupancies o (set_p_eigenvalues (Some v) p)) s).
Lemma ev_eigenvalues kbb p B rows1 rows2 e s : base_flags B -> is_eigenvalues rows1 rows2 e -> ready B s ->
  run_events kbb (events p e) s = let* s := eig_effect kbb rows1 rows2 s in Ok (if N.eqb B 4 then s else set_s_flags (B + 2 ^ 34) s).
Proof.
  intros H (arr & st & spins & k1 & k2 & r1 & r2 & (x & ->) & HA & HS & HP & F1 & F2 & C1 & C2 & NE) R. rewrite run_elem. cbn [handle].
  match goal with |- context [step kbb true true p ?e s] => assert (step kbb true true p e s = Ok (set_s_flags (B + 2 ^ 12) s)) as -> by (destruct R as (E & _ & _); clear -E H; bases H; at_flags s E; ev; reflexivity) end. cbn [bind].
  assert (In (B + 2 ^ 12)%N heading_flags) as I by (bases H; cbn; tauto).
  rewrite run_flat_one. rewrite (ev_array kbb _ (B + 2 ^ 12) st arr _ (set_s_data2 rows2 (set_s_data rows1 (set_s_flags (B + 2 ^ 12) s)))); auto; try (destruct s; auto; fail); [|bases H; discriminate|].
  - cbn [bind handle]. clear -H R. destruct R as (E & D & D2). bases H; at_flags s E; cbn [s_data s_data2] in D, D2; subst; unfold eig_effect; ev;
      (match goal with |- context [olen ?o] => destruct (olen o) as [n|] end; [|reflexivity]); (match goal with |- context [extract_eigenvalues ?a ?b ?c ?d ?f ?g] => destruct (extract_eigenvalues a b c d f g) as [[v o]|] end; reflexivity).
  - intros q. apply (ev_plain_set kbb q (B + 2 ^ 12) spins); auto. intros q'. rewrite (eig_spins kbb q' B k1 k2 r1 r2) by auto. rewrite C1, C2. destruct R as (E & D & D2). cbn [s_data s_data2 set_s_flags set_s_data]. rewrite D, D2. reflexivity.
Qed.

(** ** Projectors *)
Notation FP := (4 + 2 ^ 25 + 2 ^ 34)%N.
Lemma pr_bset1 kbb p rows k s : is_bset rows k -> s_flags s = (FP + 2 ^ 35)%N -> run_events kbb (events p k) s = Ok (set_s_data (s_data s ++ rows) s).
Proof.
  intros [(a & x & -> & A) R] E. rewrite run_elem. cbn [handle].
  assert (In (FP + 2 ^ 35)%N [FP + 2 ^ 35; FP + 2 ^ 36]%N) as I by (cbn; tauto).
  rewrite (set_quiet' _ _ _ _ _ _ _ _ _ I A E). cbn [bind]. rewrite (push_rows kbb _ (FP + 2 ^ 35) "r") by (auto; push_done). cbn [bind handle]. apply (set_quiet' _ _ _ _ _ _ _ _ _ I A). auto.
Qed.
Lemma pr_bset2 kbb p rows k s : is_bset rows k -> s_flags s = (FP + 2 ^ 36)%N -> run_events kbb (events p k) s = Ok (set_s_data2 (s_data2 s ++ rows) s).
Proof.
  intros [(a & x & -> & A) R] E. rewrite run_elem. cbn [handle].
  assert (In (FP + 2 ^ 36)%N [FP + 2 ^ 35; FP + 2 ^ 36]%N) as I by (cbn; tauto).
  rewrite (set_quiet' _ _ _ _ _ _ _ _ _ I A E). cbn [bind]. rewrite (push2_rows kbb _ (FP + 2 ^ 36) "r") by (auto; push_done). cbn [bind handle]. apply (set_quiet' _ _ _ _ _ _ _ _ _ I A). auto.
Qed.
Lemma pr_kset1 kbb p rows k s : is_kbset rows k -> s_flags s = (FP + 2 ^ 35)%N -> run_events kbb (events p k) s = Ok (set_s_data (s_data s ++ rows) s).
Proof.
  intros (bs & rs & (a & x & -> & A) & F & <-) E. rewrite run_elem. cbn [handle].
  assert (In (FP + 2 ^ 35)%N [FP + 2 ^ 35; FP + 2 ^ 36]%N) as I by (cbn; tauto).
  rewrite (set_quiet' _ _ _ _ _ _ _ _ _ I A E). cbn [bind]. rewrite (pushes kbb _ (FP + 2 ^ 35) is_bset) with (rs := rs); auto; [|intros; apply pr_bset1; auto]. cbn [bind handle]. apply (set_quiet' _ _ _ _ _ _ _ _ _ I A). auto.
Qed.
Lemma pr_kset2 kbb p rows k s : is_kbset rows k -> s_flags s = (FP + 2 ^ 36)%N -> run_events kbb (events p k) s = Ok (set_s_data2 (s_data2 s ++ rows) s).
Proof.
  intros (bs & rs & (a & x & -> & A) & F & <-) E. rewrite run_elem. cbn [handle].
  assert (In (FP + 2 ^ 36)%N [FP + 2 ^ 35; FP + 2 ^ 36]%N) as I by (cbn; tauto).
  rewrite (set_quiet' _ _ _ _ _ _ _ _ _ I A E). cbn [bind]. rewrite (pushes2 kbb _ (FP + 2 ^ 36) is_bset) with (rs := rs); auto; [|intros; apply pr_bset2; auto]. cbn [bind handle]. apply (set_quiet' _ _ _ _ _ _ _ _ _ I A). auto.
Qed.
Lemma pr_spin1 kbb p rs ks e s : is_set "spin1" ks e -> Forall2 is_kbset rs ks -> s_flags s = FP -> run_events kbb (events p e) s = Ok (set_s_data (s_data s ++ concat rs) s).
Proof.
  intros (x & ->) F E. rewrite run_elem. cbn [handle].
  match goal with |- context [step kbb true true p ?e s] => assert (step kbb true true p e s = Ok (set_s_flags (FP + 2 ^ 35) s)) as -> by (clear F; at_flags s E; ev; reflexivity) end. cbn [bind].
  rewrite (pushes kbb _ (FP + 2 ^ 35) is_kbset) with (rs := rs); auto; [|intros; apply pr_kset1; auto]. cbn [bind handle].
  change (s_data (set_s_flags (FP + 2 ^ 35) s)) with (s_data s). generalize (concat rs) as l. intros l. clear F. at_flags s E; ev; reflexivity.
Qed.
Lemma pr_spin2 kbb p rs ks e s : is_set "spin2" ks e -> Forall2 is_kbset rs ks -> s_flags s = FP -> run_events kbb (events p e) s = Ok (set_s_data2 (s_data2 s ++ concat rs) s).
Proof.
  intros (x & ->) F E. rewrite run_elem. cbn [handle].
  match goal with |- context [step kbb true true p ?e s] => assert (step kbb true true p e s = Ok (set_s_flags (FP + 2 ^ 36) s)) as -> by (clear F; at_flags s E; ev; reflexivity) end. cbn [bind].
  rewrite (pushes2 kbb _ (FP + 2 ^ 36) is_kbset) with (rs := rs); auto; [|intros; apply pr_kset2; auto]. cbn [bind handle].
  change (s_data2 (set_s_flags (FP + 2 ^ 36) s)) with (s_data2 s). generalize (concat rs) as l. intros l. clear F. at_flags s E; ev; reflexivity.
Qed.
Lemma pr_spins kbb p k1 k2 r1 r2 spins s : per_spin "spin1" "spin2" k1 k2 spins -> Forall2 is_kbset r1 k1 -> Forall2 is_kbset r2 k2 -> s_flags s = FP ->
  run_events kbb (flat_map (events p) spins) s = Ok (set_s_data2 (s_data2 s ++ concat r2) (set_s_data (s_data s ++ concat r1) s)).
Proof.
  intros P F1 F2 E. inversion P as [ks e HS|ks ls e f HS HT NE]; subst.
  - inversion F2; subst. rewrite run_flat_one, (pr_spin1 kbb p r1 k1) by auto. cbn [concat]. rewrite app_nil_r. destruct s; auto.
  - rewrite run_flat_cons, (pr_spin1 kbb p r1 k1) by auto. cbn [bind]. rewrite run_flat_one, (pr_spin2 kbb p r2 k2); auto.
Qed.
Definition pr_effect (kbb : bool) (rows1 rows2 : list xml) (s : est) : res est :=
  let o := s_out s in
  let* p := extract_projectors kbb (p_kpoints o) (p_ispin o) (p_nbands o) (p_species o) rows1 (second rows2) in
  Ok (out_ (set_p_projectors (Some p)) s).
Lemma ev_projected kbb p eig e1 e2 rows1 rows2 e s : is_eigenvalues e1 e2 eig -> is_projected eig rows1 rows2 e -> ready 4 s ->
  run_events kbb (events p e) s = let* s := eig_effect kbb e1 e2 s in pr_effect kbb rows1 rows2 s.
Proof.
  intros HE (arr & st & spins & k1 & k2 & r1 & r2 & (x & ->) & (heads & HH & (y & ->)) & HS & HP & F1 & F2 & C1 & C2 & NE) R. rewrite run_elem. cbn [handle].
  match goal with |- context [step kbb true true p ?e s] => assert (step kbb true true p e s = Ok (set_s_flags (4 + 2 ^ 25) s)) as -> by (destruct R as (E & _ & _); clear -E; at_flags s E; ev; reflexivity) end. cbn [bind].
  rewrite run_flat_cons, (ev_eigenvalues kbb _ (4 + 2 ^ 25) e1 e2); auto; [|right; auto|eapply ready_flags; eauto].
  unfold eig_effect. change (s_out (set_s_flags (4 + 2 ^ 25) s)) with (s_out s). destruct (olen (p_kpoints (s_out s))) as [n|]; cbn [bind]; auto.
  destruct (extract_eigenvalues kbb (p_ispin (s_out s)) (p_nbands (s_out s)) e1 (second e2) n) as [[v o]|]; cbn [bind]; auto.
  change (N.eqb (4 + 2 ^ 25) 4) with false. cbv iota.
  set (u := out_ (fun q => set_p_occupancies o (set_p_eigenvalues (Some v) q)) s).
  assert (set_s_flags FP (out_ (fun q => set_p_occupancies o (set_p_eigenvalues (Some v) q)) (set_s_flags (4 + 2 ^ 25) s)) = set_s_flags FP u) as -> by (unfold u; destruct s; reflexivity).
  assert (ready 4 u) as RU by (apply ready_out; auto). clearbody u. clear s R. rename u into s. rename RU into R. clear n v o.
  rewrite run_flat_one, run_elem. cbn [handle].
  assert (In FP heading_flags) as I by (cbn; tauto).
  rewrite (bare_start _ _ _ _ FP); auto; [|eexists _, _; left; reflexivity]. cbn [bind]. rewrite run_flat_app, (headings kbb _ FP) by auto. cbn [bind]. rewrite run_flat_one.
  rewrite (ev_plain_set kbb _ FP spins st _ (set_s_data2 rows2 (set_s_data rows1 (set_s_flags FP s)))); auto.
  - cbn [bind handle]. clear -R. destruct R as (E & D & D2). at_flags s E; cbn [s_data s_data2] in D, D2; subst; unfold pr_effect; ev.
    match goal with |- context [extract_projectors ?a ?b ?c ?d ?f ?g ?h] => destruct (extract_projectors a b c d f g h) end; reflexivity.
  - intros q. rewrite (pr_spins kbb q k1 k2 r1 r2) by auto. rewrite C1, C2. destruct R as (E & D & D2). cbn [s_data s_data2 set_s_flags set_s_data]. rewrite D, D2. reflexivity.
Qed.
