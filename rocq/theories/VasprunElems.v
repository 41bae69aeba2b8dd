(** Runs of the event parser over the elements of one ionic step. *)
From Coq Require Import Ascii String List NArith ZArith Bool Lia.
From Verif Require Import PyBase PyStrLemmas PyNum UtilsModel LineModel OutcarModel ChgcarModel StreamConfig VasprunTypes VasprunXml VasprunModel VasprunEvents VasprunSpec VasprunSteps VasprunDoc VasprunRun.
Import ListNotations.
Local Open Scope string_scope.
Local Open Scope list_scope.

Ltac at_flags s E := open_state s; flags_in E.
(** the parser between two elements of a calculation *)
Definition ready (F : N) (s : est) : Prop := s_flags s = F /\ s_data s = [] /\ s_data2 s = [].
Ltac at_ready s R := let E := fresh "E" in let D := fresh "D" in let D2 := fresh "D" in destruct R as (E & D & D2); open_state s; flags_in E;
  match type of D with s_data _ = _ => match goal with d1 : list xml |- _ => change (d1 = []) in D; subst d1 end end;
  match type of D2 with s_data2 _ = _ => match goal with d2 : list xml |- _ => change (d2 = []) in D2; subst d2 end end.
Lemma flags_back F s : s_flags s = F -> set_s_flags F s = s. Proof. intros <-. destruct s; reflexivity. Qed.
Lemma ev_forces kbb p rows x s : Forall (is_row "v") rows -> ready 4 s ->
  run_events kbb (events p (Elem "varray" [("name", "forces")] x rows)) s = let* m := convert2D 3 rows in Ok (set_s_force (ndset (s_calc s) (Some m) (s_force s)) s).
Proof.
  intros R (E & D & D2). rewrite run_elem. cbn [handle].
  assert (step kbb true true p (Elem "varray" [("name", "forces")] x rows) s = Ok (set_s_flags (4 + 2 ^ 26) s)) as -> by (at_flags s E; ev; reflexivity). cbn [bind].
  rewrite (push_rows kbb _ (4 + 2 ^ 26) "v") by (auto; push_done). cbn [bind handle].
  change (s_data (set_s_flags (4 + 2 ^ 26) s)) with (s_data s). rewrite D. cbn [app].
  open_state s. flags_in E. cbn [s_data s_data2] in D, D2. subst. ev. destruct (convert2D 3 rows); reflexivity.
Qed.
Lemma ev_stress kbb p rows x s : Forall (is_row "v") rows -> ready 4 s ->
  run_events kbb (events p (Elem "varray" [("name", "stress")] x rows)) s = let* m := convert2D 3 rows in Ok (set_s_stress (ndset (s_calc s) (Some m) (s_stress s)) s).
Proof.
  intros R (E & D & D2). rewrite run_elem. cbn [handle].
  assert (step kbb true true p (Elem "varray" [("name", "stress")] x rows) s = Ok (set_s_flags (4 + 2 ^ 27) s)) as -> by (at_flags s E; ev; reflexivity). cbn [bind].
  rewrite (push_rows kbb _ (4 + 2 ^ 27) "v") by (auto; push_done). cbn [bind handle].
  change (s_data (set_s_flags (4 + 2 ^ 27) s)) with (s_data s). rewrite D. cbn [app].
  open_state s. flags_in E. cbn [s_data s_data2] in D, D2. subst. ev. destruct (convert2D 3 rows); reflexivity.
Qed.
Lemma ev_basis kbb p rows x s : Forall (is_row "v") rows -> ready 12 s ->
  run_events kbb (events p (Elem "varray" [("name", "basis")] x rows)) s = let* m := convert2D 3 rows in Ok (set_s_cell (ndset (s_calc s) (Some m) (s_cell s)) s).
Proof.
  intros R (E & D & D2). rewrite run_elem. cbn [handle].
  assert (step kbb true true p (Elem "varray" [("name", "basis")] x rows) s = Ok (set_s_flags (12 + 2 ^ 4) s)) as -> by (at_flags s E; ev; reflexivity). cbn [bind].
  rewrite (push_rows kbb _ (12 + 2 ^ 4) "v") by (auto; push_done). cbn [bind handle].
  change (s_data (set_s_flags (12 + 2 ^ 4) s)) with (s_data s). rewrite D. cbn [app].
  open_state s. flags_in E. cbn [s_data s_data2] in D, D2. subst. ev. destruct (convert2D 3 rows); reflexivity.
Qed.
Lemma ev_positions kbb p rows x s : Forall (is_row "v") rows -> ready 12 s ->
  run_events kbb (events p (Elem "varray" [("name", "positions")] x rows)) s = let* m := convert2D 3 rows in Ok (set_s_pos (ndset (s_calc s) (Some m) (s_pos s)) s).
Proof.
  intros R (E & D & D2). rewrite run_elem. cbn [handle].
  assert (step kbb true true p (Elem "varray" [("name", "positions")] x rows) s = Ok (set_s_flags (12 + 2 ^ 5) s)) as -> by (at_flags s E; ev; reflexivity). cbn [bind].
  rewrite (push_rows kbb _ (12 + 2 ^ 5) "v") by (auto; push_done). cbn [bind handle].
  change (s_data (set_s_flags (12 + 2 ^ 5) s)) with (s_data s). rewrite D. cbn [app].
  open_state s. flags_in E. cbn [s_data s_data2] in D, D2. subst. ev. destruct (convert2D 3 rows); reflexivity.
Qed.
Lemma ev_kpointlist kbb p rows x s : Forall (is_row "v") rows -> ready 128 s ->
  run_events kbb (events p (Elem "varray" [("name", "kpointlist")] x rows)) s = let* m := convert2D 3 rows in Ok (out_ (set_p_kpoints (Some m)) s).
Proof.
  intros R (E & D & D2). rewrite run_elem. cbn [handle].
  assert (step kbb true true p (Elem "varray" [("name", "kpointlist")] x rows) s = Ok (set_s_flags (128 + 2 ^ 8) s)) as -> by (at_flags s E; ev; reflexivity). cbn [bind].
  rewrite (push_rows kbb _ (128 + 2 ^ 8) "v") by (auto; push_done). cbn [bind handle].
  change (s_data (set_s_flags (128 + 2 ^ 8) s)) with (s_data s). rewrite D. cbn [app].
  open_state s. flags_in E. cbn [s_data s_data2] in D, D2. subst. ev. destruct (convert2D 3 rows); reflexivity.
Qed.
Lemma ev_weights kbb p rows x s : Forall (is_row "v") rows -> ready 128 s ->
  run_events kbb (events p (Elem "varray" [("name", "weights")] x rows)) s = let* m := convert1D rows in Ok (out_ (set_p_kpointsw (Some m)) s).
Proof.
  intros R (E & D & D2). rewrite run_elem. cbn [handle].
  assert (step kbb true true p (Elem "varray" [("name", "weights")] x rows) s = Ok (set_s_flags (128 + 2 ^ 9) s)) as -> by (at_flags s E; ev; reflexivity). cbn [bind].
  rewrite (push_rows kbb _ (128 + 2 ^ 9) "v") by (auto; push_done). cbn [bind handle].
  change (s_data (set_s_flags (128 + 2 ^ 9) s)) with (s_data s). rewrite D. cbn [app].
  open_state s. flags_in E. cbn [s_data s_data2] in D, D2. subst. ev. destruct (convert1D rows); reflexivity.
Qed.
(** ** Paths *)
Lemma child_cons s r t a x ks : findall_child (s :: r) (Elem t a x ks) = flat_map (findall_child r) (filter (matches s) ks).
Proof. unfold findall_child. cbn [children_at flat_map kids]. rewrite app_nil_r. apply children_at_flat. Qed.
Lemma child_nil e : findall_child [] e = [e]. Proof. reflexivity. Qed.
Lemma filter_quiet {A} (f : A -> bool) l : (forall k, In k l -> f k = false) -> filter f l = [].
Proof. induction l as [|k l IH]; intros H; auto. cbn. rewrite H by (left; auto). apply IH. intros. apply H. right; auto. Qed.
Lemma flat_single {A} (l : list A) : flat_map (fun a => [a]) l = l. Proof. induction l; cbn; congruence. Qed.
Lemma flat_child_nil (l : list xml) : flat_map (findall_child []) l = l. Proof. apply flat_single. Qed.
Lemma filter_rows tg s rows : Forall (is_row tg) rows -> (forall t, matches s (Elem tg [] t []) = true) -> filter (matches s) rows = rows.
Proof. intros R M. induction R as [|r rows [t ->] R IH]; auto. cbn [filter]. rewrite M. congruence. Qed.
(** ** The structure *)
Lemma ready_pos F v s : ready F s -> ready F (set_s_pos v s). Proof. intros R. destruct s; exact R. Qed.
Lemma ready_cell F v s : ready F s -> ready F (set_s_cell v s). Proof. intros R. destruct s; exact R. Qed.
Lemma ready_force F v s : ready F s -> ready F (set_s_force v s). Proof. intros R. destruct s; exact R. Qed.
Lemma ready_stress F v s : ready F s -> ready F (set_s_stress v s). Proof. intros R. destruct s; exact R. Qed.
Lemma ready_totens F v s : ready F s -> ready F (set_s_totens v s). Proof. intros R. destruct s; exact R. Qed.
Lemma ready_flags F F' s : ready F s -> ready F' (set_s_flags F' s). Proof. intros (_ & D & D2). destruct s; split; auto. Qed.
Lemma ready_out F f s : ready F s -> ready F (out_ f s). Proof. intros R. destruct s; exact R. Qed.
Lemma ready_data6 F v s : ready F s -> ready F (set_s_data6 v s). Proof. intros R. destruct s; exact R. Qed.
Lemma quiet_app P a b : quiet P (a ++ b) <-> quiet P a /\ quiet P b.
Proof. unfold quiet. split; [intros H; split; intros k d I; apply H; apply in_or_app; auto|]. intros [A B] k d I. apply in_app_or in I as [I|I]; [apply A|apply B]; auto. Qed.
Lemma calm_calc kbb l p s : quiet other_calc l -> s_flags s = 4%N -> run_events kbb (flat_map (events p) l) s = Ok s.
Proof. intros Q E. apply (calm_list kbb 4 other_calc); auto. intros. apply quiet_calc; auto. Qed.
Lemma calm_structure kbb l p s : quiet other_structure l -> s_flags s = 12%N -> run_events kbb (flat_map (events p) l) s = Ok s.
Proof. intros Q E. apply (calm_list kbb 12 other_structure); auto. intros. apply quiet_structure; auto. Qed.
Lemma calm_top kbb l p s : quiet other_top l -> s_flags s = 0%N -> run_events kbb (flat_map (events p) l) s = Ok s.
Proof. intros Q E. apply (calm_list kbb 0 other_top); auto. intros. apply quiet_top; auto. Qed.
(** the two rows of a structure *)
Lemma ev_structure kbb p e s : is_structure e -> ready 4 s -> exists r1 r2,
  findall_child [Tag "crystal"; TagAt "varray" "name" "basis"; Tag "v"] e = r1 /\ findall_child [TagAt "varray" "name" "positions"; Tag "v"] e = r2 /\
  run_events kbb (events p e) s = let* m := convert2D 3 r1 in let* n := convert2D 3 r2 in Ok (set_s_pos (ndset (s_calc s) (Some n) (s_pos s)) (set_s_cell (ndset (s_calc s) (Some m) (s_cell s)) s)).
Proof.
  intros (cr & ba & po & q1 & q2 & r1 & r2 & (x & ->) & (y & ->) & ((z & ->) & R1) & ((w & ->) & R2) & Q) R.
  assert (quiet other_structure (q1 ++ q2)) as Q' by (intros k d I J; eapply Q; eauto). apply quiet_app in Q' as [Q1 Q2]. clear Q.
  exists r1, r2. split; [|split].
  - rewrite child_cons. cbn [app filter matches tag String.eqb Ascii.eqb Bool.eqb]. rewrite (filter_quiet (matches (Tag "crystal")) q2).
    + cbn [flat_map]. rewrite child_cons. cbn [filter]. change (matches (TagAt "varray" "name" "basis") (Elem "varray" [("name", "basis")] z r1)) with true. cbv iota.
      rewrite (filter_quiet _ q1). { cbn [flat_map]. rewrite child_cons, (filter_rows "v"), flat_child_nil, !app_nil_r; auto. }
      intros k K. assert (other_structure k) as O by (apply (Q1 k); [auto|left; auto]). cbn [matches]. destruct O as [O|[O|(O & n & N & D)]]; try (rewrite O; reflexivity). rewrite N. cbn [opt_is]. rewrite (proj2 (String.eqb_neq "basis" n)), andb_false_r; auto. intros <-. apply D. cbn; auto.
    + intros k K. assert (other_structure k) as O by (apply (Q2 k); [auto|left; auto]). cbn [matches]. destruct O as [O|[O|(O & _)]]; rewrite O; reflexivity.
  - rewrite child_cons. cbn [app filter]. change (matches (TagAt "varray" "name" "positions") (Elem "varray" [("name", "positions")] w r2)) with true. change (matches (TagAt "varray" "name" "positions") (Elem "crystal" ?a ?b ?c)) with false. cbv iota.
    rewrite (filter_quiet _ q2). { cbn [flat_map]. rewrite child_cons, (filter_rows "v"), flat_child_nil, !app_nil_r; auto. }
    intros k K. assert (other_structure k) as O by (apply (Q2 k); [auto|left; auto]). cbn [matches]. destruct O as [O|[O|(O & n & N & D)]]; try (rewrite O; reflexivity). rewrite N. cbn [opt_is]. rewrite (proj2 (String.eqb_neq "positions" n)), andb_false_r; auto. intros <-. apply D. cbn; auto.
  - rewrite run_elem. cbn [handle].
    match goal with |- context [step kbb true true p ?e s] => assert (step kbb true true p e s = Ok (set_s_flags 12 s)) as -> by (destruct R as (E & _ & _); at_flags s E; ev; reflexivity) end. cbn [bind].
    pose proof (ready_flags 4 12 s R) as R'. rewrite run_flat_app, run_flat_cons, run_elem. cbn [handle].
    match goal with |- context [step kbb true true ?p ?e (set_s_flags 12 s)] => assert (step kbb true true p e (set_s_flags 12 s) = Ok (set_s_flags 12 s)) as -> by (clear; open_state s; ev; reflexivity) end. cbn [bind].
    rewrite run_flat_cons, ev_basis by auto. destruct (convert2D 3 r1) as [m|]; cbn [bind]; auto.
    rewrite calm_structure by (solve [auto | destruct s; auto]). cbn [bind handle].
    match goal with |- context [step kbb false true None ?e ?t] => assert (step kbb false true None e t = Ok t) as -> by (clear; open_state s; ev; reflexivity) end. cbn [bind].
    rewrite run_flat_one, ev_positions by (auto using ready_cell). destruct (convert2D 3 r2) as [n|]; cbn [bind]; auto.
    rewrite calm_structure by (solve [auto | destruct s; auto]). cbn [bind handle]. destruct R as (E & D & D2). clear -E. open_state s. flags_in E. ev. reflexivity.
Qed.
