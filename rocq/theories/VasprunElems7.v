(** Runs of the event parser over dielectric functions, Born charges and force constants. *)
From Coq Require Import Ascii String List NArith ZArith Bool Lia.
From Verif Require Import PyBase PyStrLemmas PyNum UtilsModel LineModel OutcarModel ChgcarModel StreamConfig VasprunTypes VasprunXml VasprunModel VasprunEvents VasprunSpec VasprunSteps VasprunDoc VasprunRun VasprunElems VasprunElems4 VasprunElems5.
Import ListNotations.
Local Open Scope string_scope.
Local Open Scope list_scope.

(** ** Dielectric functions *)
Lemma diel_part kbb p n rows e s : n = "imag" \/ n = "real" -> is_part n rows e -> s_flags s = (4 + 2 ^ 33)%N -> run_events kbb (events p e) s = Ok (set_s_data (s_data s ++ rows) s).
Proof.
  intros N (arr & st & (x & ->) & HA & HS & R) E. rewrite run_elem. cbn [handle].
  assert (forall b q, step kbb b true q (Elem n [] x [arr]) s = Ok s) as A by (intros b q; clear -N E; destruct N as [->| ->]; at_flags s E; destruct b; ev; reflexivity).
  rewrite A. cbn [bind]. rewrite run_flat_one, (ev_array kbb _ (4 + 2 ^ 33) st arr _ (set_s_data (s_data s ++ rows) s)); auto; [|cbn; tauto|discriminate|].
  - cbn [bind handle]. clear -N E. destruct N as [->| ->]; at_flags s E; ev; reflexivity.
  - intros q. apply (ev_plain_set kbb q (4 + 2 ^ 33) rows); auto; [cbn; tauto|]. intros q'. apply (push_rows kbb _ (4 + 2 ^ 33) "r"); auto. push_done.
Qed.
Lemma ev_diel kbb p im re e s : is_dielectric im re e -> ready 4 s -> run_events kbb (events p e) s =
  let* m := convert2D 7 (im ++ re) in let* h := split_even 2 m in
  Ok (out_ (set_p_diel (Some (Diel (Some (column 0 (nth 0 h []))) (Some (columns_from1 (nth 0 h []))) (Some (columns_from1 (nth 1 h []))) None None))) s).
Proof.
  intros (a & x & i & r & -> & HI & HR & _) R. rewrite run_elem. cbn [handle].
  match goal with |- context [step kbb true true p ?e s] => assert (step kbb true true p e s = Ok (set_s_flags (4 + 2 ^ 33) s)) as -> end.
  { destruct R as (E & _ & _); clear -E; at_flags s E. blocks. unfold attr. cbn [attrs]. destruct (assoc "name" a) as [n|]; destruct (assoc "comment" a) as [w|]; cbv [opt_is]; try destruct (String.eqb "interpolated" w); ev; reflexivity. }
  cbn [bind]. rewrite run_flat_cons, (diel_part kbb _ "imag" im) by auto. cbn [bind]. rewrite run_flat_one, (diel_part kbb _ "real" re) by auto. cbn [bind handle].
  destruct R as (E & D & D2). clear -E D D2. cbn [s_data set_s_data set_s_flags]. rewrite D. cbn [app]. at_flags s E. cbn [s_data s_data2] in D, D2. subst d1 d2.
  blocks. unfold attr. cbn [attrs]. destruct (assoc "name" a) as [n|]; destruct (assoc "comment" a) as [w|]; cbv [opt_is]; try destruct (String.eqb "interpolated" w); ev; destruct (convert2D 7 (im ++ re)) as [m|]; ev; try reflexivity; destruct (split_even 2 m) as [h|]; ev; reflexivity.
Qed.
(** ** Born charges *)
Lemma ev_born kbb p rows e s spe : is_born rows e -> ready 4 s -> p_species (s_out s) = Some spe -> run_events kbb (events p e) s =
  let* m := convert2D 3 rows in let* b := split_even (length spe) m in Ok (out_ (set_p_born (BornArray b)) s).
Proof.
  intros (x & heads & sets & rs & -> & HH & F & C & _) R SP. rewrite run_elem. cbn [handle].
  match goal with |- context [step kbb true true p ?e s] => assert (step kbb true true p e s = Ok (set_s_flags (4 + 2 ^ 40) s)) as -> by (destruct R as (E & _ & _); clear -E; at_flags s E; ev; reflexivity) end.
  cbn [bind]. rewrite run_flat_app, (headings kbb _ (4 + 2 ^ 40)) by (auto; cbn; tauto). cbn [bind].
  rewrite (pushes kbb _ (4 + 2 ^ 40) (fun r st => plain "set" r st /\ Forall (is_row "v") r)) with (rs := rs); auto.
  - rewrite C. cbn [bind handle]. destruct R as (E & D & D2). clear -E D D2 SP. cbn [s_data set_s_data set_s_flags]. rewrite D. cbn [app].
    at_flags s E. cbn [s_data s_data2 s_out] in *. subst. destruct ou. cbn in SP. subst. ev. destruct (convert2D 3 rows) as [m|]; ev; try reflexivity. destruct (split_even _ m) as [b|]; ev; reflexivity.
  - clear. intros r e s (HS & FR) E. apply (ev_plain_set kbb _ (4 + 2 ^ 40) r); auto; [cbn; tauto|]. intros q'. apply (push_rows kbb _ (4 + 2 ^ 40) "v"); auto. push_done.
Qed.
(** ** Force constants *)
Lemma quiet_dynmat kbb st seen par d s : other_dynmat d -> s_flags s = (4 + 2 ^ 37)%N -> step kbb st seen par d s = Ok s.
Proof.
  intros [[T [A V]] NN] E. open_state s. flags_in E. blocks.
  assert (forall n, n = "atoms" \/ n = "born_charges" -> (String.eqb "array" (tag d) && opt_is n (attr d "name"))%bool = false) as B.
  { intros n N. destruct (String.eqb_spec "array" (tag d)) as [Q|]; auto. apply opt_is_false. intros Z. apply A. destruct N as [->| ->]; auto. }
  replace (st && String.eqb "array" (tag d) && opt_is "atoms" (attr d "name"))%bool with false by (rewrite <- andb_assoc, B, andb_false_r; auto).
  replace (negb st && String.eqb "array" (tag d) && opt_is "atoms" (attr d "name"))%bool with false by (rewrite <- andb_assoc, B, andb_false_r; auto).
  replace (st && String.eqb "array" (tag d) && opt_is "born_charges" (attr d "name"))%bool with false by (rewrite <- andb_assoc, B, andb_false_r; auto).
  replace (negb st && String.eqb "array" (tag d) && opt_is "born_charges" (attr d "name"))%bool with false by (rewrite <- andb_assoc, B, andb_false_r; auto).
  assert (opt_is "hessian" (attr d "name") = false) as N1 by (apply opt_is_false; intros Z; apply NN; rewrite Z; cbn; tauto).
  assert (opt_is "eigenvalues" (attr d "name") = false) as N2 by (apply opt_is_false; intros Z; apply NN; rewrite Z; cbn; tauto).
  assert (opt_is "eigenvectors" (attr d "name") = false) as N3 by (apply opt_is_false; intros Z; apply NN; rewrite Z; cbn; tauto).
  rewrite !N1, !N2, !N3, !andb_false_r. clear NN N1 N2 N3.
  destruct (String.eqb_spec "varray" (tag d)) as [Q|NV].
  - clear B A T. destruct (V (eq_sym Q)) as (n & N & NF & NS). destruct d as [tg a t ks]. cbn [tag] in Q. subst tg. rewrite !N. cbv [opt_is]. rewrite !(proj2 (String.eqb_neq "forces" n)), !(proj2 (String.eqb_neq "stress" n)) by congruence.
    match goal with |- context [attr (Elem "varray" a t ks) "comment"] => destruct (attr (Elem "varray" a t ks) "comment") as [w|]; [destruct (String.eqb "interpolated" w)|] end; destruct st; ev; reflexivity.
  - no_tags T. destruct (opt_is "interpolated" (attr d "comment")); destruct st; ev; reflexivity.
Qed.
Lemma ev_hessian kbb p rows x s spe : Forall (is_row "v") rows -> ready (4 + 2 ^ 37) s -> p_species (s_out s) = Some spe ->
  run_events kbb (events p (Elem "varray" [("name", "hessian")] x rows)) s = let* m := convert2D (length spe * 3) rows in Ok (out_ (set_p_hessian (Some m)) s).
Proof.
  intros R (E & D & D2) SP. rewrite run_elem. cbn [handle].
  assert (step kbb true true p (Elem "varray" [("name", "hessian")] x rows) s = Ok (set_s_flags (4 + 2 ^ 37 + 2 ^ 39) s)) as -> by (clear -E; at_flags s E; ev; reflexivity). cbn [bind].
  rewrite (push_rows kbb _ (4 + 2 ^ 37 + 2 ^ 39) "v") by (auto; push_done). cbn [bind handle].
  change (s_data (set_s_flags (4 + 2 ^ 37 + 2 ^ 39) s)) with (s_data s). rewrite D. cbn [app].
  at_flags s E. cbn [s_data s_data2 s_out] in *. subst. destruct ou. cbn in SP. subst. cbv -[app convert2D OutcarModel.to_float nth length Nat.mul]. cbn [length]. destruct (convert2D (length spe * 3) rows); reflexivity.
Qed.
Lemma ev_vectors kbb p rows x s spe : Forall (is_row "v") rows -> ready (4 + 2 ^ 37) s -> p_species (s_out s) = Some spe ->
  run_events kbb (events p (Elem "varray" [("name", "eigenvectors")] x rows)) s = let* m := convert2D (length spe * 3) rows in Ok (set_s_dynmat (set_dy_vectors (Some m) (s_dynmat s)) s).
Proof.
  intros R (E & D & D2) SP. rewrite run_elem. cbn [handle].
  assert (step kbb true true p (Elem "varray" [("name", "eigenvectors")] x rows) s = Ok (set_s_flags (4 + 2 ^ 37 + 2 ^ 38) s)) as -> by (clear -E; at_flags s E; ev; reflexivity). cbn [bind].
  rewrite (push_rows kbb _ (4 + 2 ^ 37 + 2 ^ 38) "v") by (auto; push_done). cbn [bind handle].
  change (s_data (set_s_flags (4 + 2 ^ 37 + 2 ^ 38) s)) with (s_data s). rewrite D. cbn [app].
  at_flags s E. cbn [s_data s_data2 s_out] in *. subst. destruct ou. cbn in SP. subst. cbv -[app convert2D OutcarModel.to_float nth length Nat.mul]. cbn [length]. destruct (convert2D (length spe * 3) rows); reflexivity.
Qed.
Lemma ev_values kbb p t s : s_flags s = (4 + 2 ^ 37)%N ->
  run_events kbb (events p (Elem "v" [("name", "eigenvalues")] t [])) s = let* v := convert_array_f t in Ok (set_s_dynmat (set_dy_values (Some v) (s_dynmat s)) s).
Proof. intros E. at_flags s E. ev. destruct (convert_array_f t); reflexivity. Qed.
Lemma ev_dynmat kbb p hess t vecs e s spe : is_dynmat hess t vecs e -> ready 4 s -> p_species (s_out s) = Some spe -> run_events kbb (events p e) s =
  let* h := convert2D (length spe * 3) hess in let* v := convert_array_f t in let* m := convert2D (length spe * 3) vecs in
  Ok (set_s_has_dynmat true (set_s_dynmat (Dynm (Some v) (Some m)) (out_ (set_p_hessian (Some h)) s))).
Proof.
  intros (h & v & q & (x & ->) & ((y & ->) & RH) & ((z & ->) & RV) & _ & Q) R SP. rewrite run_elem. cbn [handle].
  match goal with |- context [step kbb true true p ?e s] => assert (step kbb true true p e s = Ok (set_s_flags (4 + 2 ^ 37) s)) as -> by (destruct R as (E & _ & _); clear -E; at_flags s E; ev; reflexivity) end.
  cbn [bind]. pose proof (ready_flags 4 (4 + 2 ^ 37) s R) as R1. set (s1 := set_s_flags (4 + 2 ^ 37) s) in *. cbn [app]. rewrite run_flat_cons, (ev_hessian kbb _ _ _ s1 spe) by auto. destruct (convert2D (length spe * 3) hess) as [mh|]; cbn [bind]; auto.
  rewrite run_flat_cons, ev_values by (destruct s; reflexivity). destruct (convert_array_f t) as [vals|]; cbn [bind]; auto.
  rewrite run_flat_cons, (ev_vectors kbb _ _ _ _ spe). 2: auto. 2: { destruct s; exact R1. } 2: { destruct s. exact SP. }
  destruct (convert2D (length spe * 3) vecs) as [mv|]; cbn [bind]; auto.
  rewrite (calm_list kbb (4 + 2 ^ 37) other_dynmat); auto. 2: { intros. apply quiet_dynmat; auto. }
  cbn [bind handle]. unfold s1. destruct R as (E & _ & _). clear -E. at_flags s E. ev. reflexivity.
Qed.
