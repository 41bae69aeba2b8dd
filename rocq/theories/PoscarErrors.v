(** Exit codes of the POSCAR model. *)
From Coq Require Import Ascii String List NArith ZArith QArith Bool Lia Arith.
From Verif Require Import PyBase PyNum PyStrLemmas PyNumLemmas PyLines PyToken UtilsModel KpointsModel KpointsSpec KpointsEdits KpointsHistory
  PoscarModel ArithModel PoscarGroup PoscarSpec PoscarRead PoscarRoundTrip PoscarTheorems.
Import ListNotations.
Local Open Scope list_scope.
Local Open Scope bool_scope.
Local Open Scope nat_scope.

Section E.
Variable A : arith.
Ltac nx := repeat first
  [ apply noexit_ok
  | apply noexit_option; discriminate
  | apply noexit_mapM; intros
  | apply noexit_bind; [|intros]
  | match goal with |- noexit _ (match ?b with _ => _ end) => destruct b end
  | discriminate ].
Lemma next_specie_noexit c spec atoms st : noexit c (next_specie spec atoms st).
Proof. unfold next_specie, py_nth. nx. Qed.
Lemma num3_noexit c l f : noexit c (num3 A l f).
Proof. unfold num3, py_nth, num_tok. nx. Qed.
Lemma to_direct_noexit c v m : noexit c (to_direct A v m).
Proof. unfold to_direct, inv, dot. nx. Qed.
Lemma zat_noexit {T} c (l : list T) n : noexit c (zat l n).
Proof. unfold zat, py_nth. nx. Qed.
Lemma read_sites_noexit c ls spec atoms d s sc cell k : forall i st, noexit c (read_sites A ls spec atoms d s sc cell i k st).
Proof.
  induction k as [|k IH]; intros i st; cbn [read_sites]; [discriminate|].
  apply noexit_bind; [apply next_specie_noexit|]. intros [sp st']. apply noexit_bind; [unfold py_nth; nx|]. intros l.
  apply noexit_bind; [apply num3_noexit|]. intros p. apply noexit_bind; [destruct d; [discriminate|apply to_direct_noexit]|]. intros q.
  apply noexit_bind; [unfold flags3, py_nth; cbv zeta; nx|]. intros f. apply noexit_bind; [apply IH|]. discriminate.
Qed.
Lemma read_tail_noexit c ls p d : c <> 302%Z -> noexit c (read_tail_mode ls p d).
Proof.
  intros N. unfold read_tail_mode, py_nth. cbv zeta.
  repeat first [ apply noexit_ok | apply zat_noexit | apply noexit_option; discriminate | apply noexit_bind; [|intros]
  | match goal with |- noexit _ (match ?b with _ => _ end) => destruct b end | unfold noexit; congruence ].
Qed.
Lemma from_list_noexit c ls : c <> 302%Z -> c <> 301%Z -> c <> 307%Z -> noexit c (from_list A ls).
Proof.
  intros N1 N2 N3. unfold from_list, py_nth, num_tok, int_tok, asarray, read_mode, read_velocities, read_predictors, read_block, py_nth. cbv zeta.
  repeat first [ apply noexit_ok | apply zat_noexit | apply read_sites_noexit | apply read_tail_noexit; assumption | apply num3_noexit | apply to_direct_noexit
    | apply noexit_option; discriminate | apply noexit_mapM; intros | apply noexit_bind; [|intros]
    | match goal with |- noexit _ (match ?b with _ => _ end) => destruct b end | unfold noexit; congruence ].
Qed.
Lemma validate_noexit c es : c <> 13%Z -> noexit c (validate A es).
Proof.
  intros N. unfold validate, check_comment, check_unitcell, check_sites, arg_or, pkey.
  repeat first [ apply noexit_ok | apply noexit_option; discriminate | apply noexit_bind; [|intros]
    | match goal with |- noexit _ (match ?b with _ => _ end) => destruct b end | unfold noexit; congruence ].
Qed.
Lemma from_dict_noexit c es : noexit c (from_dict A es).
Proof.
  unfold from_dict, pkey, from_dict_site, unitcell_of.
  repeat first [ apply noexit_ok | apply to_direct_noexit | apply noexit_option; discriminate | apply noexit_mapM; intros | apply noexit_bind; [|intros]
    | match goal with |- noexit _ (match ?b with _ => _ end) => destruct b end | unfold noexit; congruence ].
Qed.
Lemma poscar_exit10 a : poscar_init A a = Exn (SysExit 10) <->
  let s := is_some (pa_string A a) in let d := is_some (pa_dict A a) in let p := is_some (pa_path A a) in let h := is_some (pa_handler A a) in
  s && d || s && p || d && p && h || negb (s || d || p || h) = true.
Proof.
  cbv zeta. unfold poscar_init.
  destruct (is_some (pa_string A a)) eqn:S, (is_some (pa_dict A a)) eqn:D, (is_some (pa_path A a)) eqn:P, (is_some (pa_handler A a)) eqn:H;
    cbn [andb orb negb]; try (split; auto; fail); (split; [|discriminate]); intros E; exfalso; revert E;
    (match goal with |- ?x = Exn (SysExit 10) -> False => change (noexit 10 x) end);
    repeat first [ apply from_list_noexit; discriminate | apply validate_noexit; discriminate | apply from_dict_noexit | apply noexit_ok
                 | apply noexit_bind; [|intros]
                 | match goal with |- noexit _ (match ?b with _ => _ end) => destruct b end
                 | discriminate
                 | unfold read_from_file, file_data ].
Qed.
Lemma pread_exit ch txt c : c <> 13%Z -> pread A ch txt = Exn (SysExit c) <-> from_list A (plines ch txt) = Exn (SysExit c).
Proof.
  intros N. rewrite pread_eq. destruct (from_list A (plines ch txt)) as [es|e] eqn:F; cbn [bind]; [|tauto].
  split; [|discriminate]. intros H. exfalso. revert H.
  match goal with |- ?x = Exn (SysExit c) -> False => change (noexit c x) end.
  apply noexit_bind; [apply from_dict_noexit|]. intros e. apply noexit_bind; [apply validate_noexit; auto|]. discriminate.
Qed.
(** exit 301 *)
Lemma from_list_301 ls : from_list A ls = Exn (SysExit 301) <->
  exists l0 l5 l1 t r sc, nth_error ls 0 = Some l0 /\ nth_error ls 5 = Some l5 /\ nth_error ls 1 = Some l1 /\
    split_ws l1 = t :: r /\ nparse A t = Some sc /\ nneg A sc = false /\ is_numbers l5 = true.
Proof.
  unfold from_list. unfold py_nth at 1. destruct (nth_error ls 0) as [l0|] eqn:E0; cbn [of_option bind]; [|split; [discriminate|intros (?&?&?&?&?&?&K&_); discriminate]].
  unfold py_nth at 1. destruct (nth_error ls 5) as [l5|] eqn:E5; cbn [of_option bind]; [|split; [discriminate|intros (?&?&?&?&?&?&_&K&_); discriminate]].
  unfold py_nth at 1. destruct (nth_error ls 1) as [l1|] eqn:E1; cbn [of_option bind]; [|split; [discriminate|intros (?&?&?&?&?&?&_&_&K&_); discriminate]].
  unfold py_nth at 1. destruct (split_ws l1) as [|t r] eqn:ES; cbn [nth_error of_option bind];
    [split; [discriminate|intros (?&?&l&?&?&?&_&_&K&K2&_); inversion K; subst; rewrite ES in K2; discriminate]|].
  unfold num_tok at 1. destruct (nparse A t) as [sc|] eqn:EP; cbn [of_option bind];
    [|split; [discriminate|intros (?&?&l&?&?&?&_&_&K&K2&K3&_); inversion K; subst; rewrite ES in K2; inversion K2; subst; congruence]].
  destruct (nneg A sc) eqn:NG.
  { split; [discriminate|]. intros (?&?&l&?&?&?&_&_&K&K2&K3&K4&_). inversion K; subst. rewrite ES in K2. inversion K2; subst. rewrite EP in K3. inversion K3. subst. congruence. }
  destruct (is_numbers l5) eqn:N5.
  { split; [|reflexivity]. intros _. exists l0, l5, l1, t, r, sc. auto 10. }
  split.
  - intros H. exfalso. revert H. match goal with |- ?x = Exn (SysExit 301) -> False => change (noexit 301 x) end.
    unfold py_nth, num_tok, int_tok, asarray, read_mode, read_velocities, read_predictors, read_block, py_nth. cbv zeta.
    repeat first [ apply noexit_ok | apply zat_noexit | apply read_sites_noexit | apply read_tail_noexit; discriminate | apply num3_noexit | apply to_direct_noexit
      | apply noexit_option; discriminate | apply noexit_mapM; intros | apply noexit_bind; [|intros]
      | match goal with |- noexit _ (match ?b with _ => _ end) => destruct b end | unfold noexit; congruence ].
  - intros (?&l&?&?&?&?&_&K&_&_&_&_&K2). inversion K. subst. congruence.
Qed.
End E.
