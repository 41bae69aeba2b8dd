(** What a successful run of the regular parser is. *)
From Coq Require Import Ascii String List NArith ZArith Bool Lia.
From Verif Require Import PyBase PyStrLemmas PyNum UtilsModel LineModel OutcarModel DoscarProofs StreamConfig ChgcarModel ChgcarSpec ChgcarProofs VasprunTypes VasprunXml VasprunModel VasprunSpec VasprunTables.
Import ListNotations.
Local Open Scope list_scope.

Definition cell_part (u : upfs) : ndict (option matrix) := let '(c, _, _, _) := u in c.
Definition pos_part (u : upfs) : ndict (option matrix) := let '(_, p, _, _) := u in p.
Definition force_part (u : upfs) : ndict (option matrix) := let '(_, _, f, _) := u in f.
Definition stress_part (u : upfs) : ndict (option matrix) := let '(_, _, _, s) := u in s.
Record tree_run (x : xml) (kbb all : bool) (p : parsed) : Prop := TreeRun {
  tr_version : p_version p = fetch_version x;
  tr_symprec : fetch_symprec x = Ok (p_symprec p);
  tr_sigma : fetch_sigma x = Ok (p_sigma p);
  tr_ismear : fetch_ismear x = Ok (p_ismear p);
  tr_ispin : fetch_ispin x = Ok (p_ispin p);
  tr_nbands : fetch_nbands x = Ok (p_nbands p);
  tr_nelect : fetch_nelect x = Ok (p_nelect p);
  tr_system : p_system p = fetch_system x;
  tr_nelm : fetch_nelm x = Ok (p_nelm p);
  tr_nsw : fetch_nsw x = Ok (p_nsw p);
  tr_species : fetch_species x = Ok (p_species p);
  tr_upfs : exists u, fetch_upfs x (p_species p) all = Ok u /\ p_cell p = option_map cell_part u /\ p_pos p = option_map pos_part u /\ p_force p = option_map force_part u /\ p_stress p = option_map stress_part u;
  tr_kpoints : fetch_kpoints x = Ok (p_kpoints p);
  tr_kpointsw : fetch_kpointsw x = Ok (p_kpointsw p);
  tr_kdiv : fetch_kdiv x = Ok (p_kdiv p);
  tr_eigenvalues : fetch_eigenvalues x kbb (p_ispin p) (p_nbands p) (p_kpoints p) = Ok (p_eigenvalues p, p_occupancies p);
  tr_specific : exists spec vel, fetch_eigenvalues_specific x kbb (p_ispin p) (p_nbands p) = Ok spec /\ fetch_eigenvelocities x kbb (p_ispin p) (p_nbands p) = Ok vel /\
    p_eigenvalues_specific p = option_map (fun s => fst (fst s)) spec /\ p_velocities p = option_map (fun s => fst (fst s)) vel /\
    p_kpoints_specific p = (match vel, spec with Some (_, k, _), _ => k | None, Some (_, k, _) => k | None, None => None end) /\
    p_kpointsw_specific p = (match vel, spec with Some (_, _, w), _ => w | None, Some (_, _, w) => w | None, None => None end);
  tr_dos : fetch_dos x (p_species p) = Ok (p_dos p, p_dos_specific p);
  tr_totens : fetch_totens x = Ok (p_totens p);
  tr_diel : exists d, fetch_diel x = Ok d /\ p_diel p = Some d;
  tr_projectors : fetch_projectors x kbb (p_kpoints p) (p_ispin p) (p_nbands p) (p_species p) = Ok (p_projectors p);
  tr_hessian : fetch_hessian x (p_species p) = Ok (p_hessian p);
  tr_dynmat : fetch_dynmat x (p_species p) = Ok (p_dynmat p);
  tr_born : fetch_born x (p_species p) = Ok (p_born p) }.
Lemma parsew_run x kbb all p : parsew x kbb all = Ok p -> tree_run x kbb all p.
Proof.
  unfold parsew. cbv zeta. intros H.
  repeat match type of H with
         | bind _ _ = Ok _ => let v := fresh "v" in let E := fresh "E" in apply bind_ok in H as [v [E H]]
         | match ?q with (_, _) => _ end = Ok _ => destruct q
         end.
  apply Ok_inj' in H. subst p. constructor; cbn [p_version p_symprec p_sigma p_ismear p_ispin p_nbands p_nelect p_system p_nelm p_nsw p_species p_cell p_pos p_force p_stress p_kpoints p_kpointsw p_kdiv p_eigenvalues p_occupancies p_eigenvalues_specific p_velocities p_kpoints_specific p_kpointsw_specific p_dos p_dos_specific p_totens p_diel p_projectors p_hessian p_dynmat p_born]; auto.
  - eexists. split; [eassumption|]. auto.
  - eexists _, _. repeat split; eassumption.
  - eexists. split; eauto.
Qed.
Lemma run_parsew x kbb all p : tree_run x kbb all p -> parsew x kbb all = Ok p.
Proof.
  intros R. destruct R as [R1 R2 R3 R4 R5 R6 R7 R8 R9 R10 R11 (u & R12 & R13 & R14 & R15 & R16) R17 R18 R19 R20 (sp & ve & R21 & R22 & R23 & R24 & R25 & R26) R27 R28 (d & R29 & R30) R31 R32 R33 R34].
  unfold parsew. cbv zeta. rewrite R2, R3, R4, R5, R6, R7, R9, R10, R11. cbn [bind]. rewrite R12. cbn [bind]. rewrite R17, R18, R19. cbn [bind]. rewrite R20, R21, R22, R27, R28, R29, R31, R32, R33, R34. cbn [bind].
  destruct p. cbn in *. subst. reflexivity.
Qed.
