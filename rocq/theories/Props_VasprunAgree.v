(** Properties C55 and C71: the tree based and the event driven parser of vasprun.xml. *)
From Coq Require Import Ascii String List NArith ZArith Bool Lia.
From Verif Require Import PyBase PyStrLemmas PyNum UtilsModel LineModel OutcarModel DoscarProofs ChgcarModel ChgcarProofs StreamConfig VasprunTypes VasprunXml VasprunModel VasprunEvents VasprunSpec VasprunTables VasprunTree VasprunSteps VasprunEnergies VasprunDoc VasprunAccess VasprunAgree2 VasprunAgree3 Props_Vasprun.
Import ListNotations.
Local Open Scope list_scope.

(** ** C55: runs of VASP *)
(** everything the accessors show but the ionic steps and the dielectric data: version,
    parameters, species, k-points, eigenvalues and occupancies (also those of other k-points),
    velocities, density of states, energies, projectors, force constants, Born charges *)
Definition same_data (p p' : parsed) : Prop :=
  p_version p' = p_version p /\ p_symprec p' = p_symprec p /\ p_sigma p' = p_sigma p /\ p_ismear p' = p_ismear p /\ p_ispin p' = p_ispin p /\ p_nbands p' = p_nbands p /\
  p_nelect p' = p_nelect p /\ p_system p' = p_system p /\ p_nelm p' = p_nelm p /\ p_nsw p' = p_nsw p /\ p_species p' = p_species p /\
  p_kpoints p' = p_kpoints p /\ p_kpointsw p' = p_kpointsw p /\ p_kdiv p' = p_kdiv p /\ p_eigenvalues p' = p_eigenvalues p /\ p_occupancies p' = p_occupancies p /\
  p_eigenvalues_specific p' = p_eigenvalues_specific p /\ p_velocities p' = p_velocities p /\ p_kpoints_specific p' = p_kpoints_specific p /\ p_kpointsw_specific p' = p_kpointsw_specific p /\
  p_dos p' = p_dos p /\ p_dos_specific p' = p_dos_specific p /\ p_totens p' = p_totens p /\ p_projectors p' = p_projectors p /\ p_hessian p' = p_hessian p /\ p_dynmat p' = p_dynmat p /\ p_born p' = p_born p.
(** [x] is a run of VASP (VasprunDoc.v) with the ionic steps [steps] of [n] atoms and their
    energies [energies] *)
Definition vasp_run (x : xml) (n : nat) (steps : list ion_step) (energies : list (str -> energy_pair)) : Prop :=
  exists calcs, is_run x calcs /\ Forall2 (step_holds n) calcs steps /\ Forall2 energies_hold calcs energies.
(** If the regular parser reads the run then so does the event parser, and the data are the same *)
Theorem C55_vasprun_parsers_agree : forall x n steps energies kbb all p, vasp_run x n steps energies -> parsew x kbb all = Ok p ->
  exists p', parsee kbb (events None x) = Ok p' /\ same_data p p'.
Proof.
  intros x n steps energies kbb all p (calcs & R & S & E) P. eexists. split; [eapply agree; eauto|]. unfold same_data, event_result. repeat split.
Qed.
Lemma run_calcs x n steps energies : vasp_run x n steps energies -> Forall2 (step_holds n) (calculations x) steps /\ steps <> [].
Proof.
  intros (calcs & R & S & E). destruct (run_is _ _ R) as (ge & kp & pa & ai & q1 & q2 & q3 & q4 & q5 & q6 & Q). rewrite (calcs_are Q). split; auto.
  intros ->. inversion S; subst. apply (rp_some _ _ _ _ _ _ _ _ _ _ _ _ Q). auto.
Qed.
Lemma agree_run x n steps energies kbb all p p' : vasp_run x n steps energies -> parsew x kbb all = Ok p -> parsee kbb (events None x) = Ok p' -> p' = event_result steps p.
Proof. intros (calcs & R & S & E) P P'. rewrite (agree _ _ _ _ _ _ _ _ R S E P) in P'. apply Ok_inj' in P'. auto. Qed.
(** The dielectric function: the same energies, imaginary part and real part; without one in the
    document the event parser has no entry and the regular one an entry without energies *)
Theorem C55_vasprun_dielectric_agree : forall x n steps energies kbb all p p', vasp_run x n steps energies -> parsew x kbb all = Ok p -> parsee kbb (events None x) = Ok p' ->
  exists d, get_dielectrics p = Some d /\
    (di_energy d = None /\ di_imag d = None /\ di_real d = None /\ get_dielectrics p' = None \/
     di_energy d <> None /\ di_imag d <> None /\ di_real d <> None /\ exists d', get_dielectrics p' = Some d' /\ di_energy d' = di_energy d /\ di_imag d' = di_imag d /\ di_real d' = di_real d).
Proof.
  intros x n steps energies kbb all p p' V P P'. rewrite (agree_run _ _ _ _ _ _ _ _ V P P'). destruct V as (calcs & R & S & E). destruct (run_is _ _ R) as (ge & kp & pa & ai & q1 & q2 & q3 & q4 & q5 & q6 & Q). apply parsew_run in P as T.
  destruct (diel_parts Q T) as (d & PD & H). exists d. split; [exact PD|]. unfold get_dielectrics, event_result. cbn [p_diel set_p_diel]. unfold event_diel. rewrite PD.
  destruct d as [e i r a b]. cbn [di_energy di_imag di_real] in *. destruct H as [(-> & -> & ->)|(e' & i' & r' & -> & -> & ->)]; [left; auto|right].
  do 3 (split; [discriminate|]). eexists. split; [reflexivity|]. auto.
Qed.
Lemma get_numbered_initial (l : list matrix) m : hd_error l = Some m -> get_steps (Some (numbered l)) (lit "initial") = Ok (StepValue (Some m)).
Proof.
  intros H. unfold get_steps. change (check_status (lit "initial")) with (Ok tt). cbn [bind]. change (seqb (lit "initial") (lit "initial")) with true. cbn iota.
  rewrite (ndget_numbered l 0 m) by (destruct l; auto). auto.
Qed.
Lemma get_numbered_last (l : list matrix) pre m : l = pre ++ [m] -> get_steps (Some (numbered l)) (lit "last") = Ok (StepValue (Some m)).
Proof.
  intros E. unfold get_steps. change (check_status (lit "last")) with (Ok tt). cbn [bind]. change (seqb (lit "last") (lit "initial")) with false. change (seqb (lit "last") (lit "last")) with true. cbn iota.
  rewrite max_numbered by (rewrite E; destruct pre; discriminate). cbn [of_option bind]. rewrite E, app_length. cbn [length]. rewrite Nat.add_1_r.
  rewrite (ndget_numbered _ (length pre) m) by (rewrite nth_error_app2, Nat.sub_diag by lia; auto). auto.
Qed.
(** The event parser shows the ionic steps: 'initial' is the first, 'last' the last, 'all' are all *)
Theorem C55_vasprun_event_steps : forall x n steps energies kbb all p p', vasp_run x n steps energies -> parsew x kbb all = Ok p -> parsee kbb (events None x) = Ok p' ->
  (forall s0 r, steps = s0 :: r -> get_unitcell p' (lit "initial") = Ok (StepValue (Some (st_cell s0))) /\ get_positions p' (lit "initial") = Ok (StepValue (Some (st_pos s0))) /\
     get_forces p' (lit "initial") = Ok (StepValue (Some (st_force s0))) /\ get_stress p' (lit "initial") = Ok (StepValue (Some (st_stress s0)))) /\
  (forall pre s1, steps = pre ++ [s1] -> get_unitcell p' (lit "last") = Ok (StepValue (Some (st_cell s1))) /\ get_positions p' (lit "last") = Ok (StepValue (Some (st_pos s1))) /\
     get_forces p' (lit "last") = Ok (StepValue (Some (st_force s1))) /\ get_stress p' (lit "last") = Ok (StepValue (Some (st_stress s1)))) /\
  exists c q f s, get_unitcell p' (lit "all") = Ok (AllSteps c) /\ get_positions p' (lit "all") = Ok (AllSteps q) /\ get_forces p' (lit "all") = Ok (AllSteps f) /\ get_stress p' (lit "all") = Ok (AllSteps s) /\
    steps_dict (map st_cell steps) c /\ steps_dict (map st_pos steps) q /\ steps_dict (map st_force steps) f /\ steps_dict (map st_stress steps) s.
Proof.
  intros x n steps energies kbb all p p' R P P'. rewrite (agree_run _ _ _ _ _ _ _ _ R P P'). clear R P P' p'. unfold get_unitcell, get_positions, get_forces, get_stress, event_result.
  cbn [p_cell p_pos p_force p_stress set_p_diel set_p_cell set_p_pos set_p_force set_p_stress]. split; [|split].
  - intros s0 r ->. repeat split; apply get_numbered_initial; auto.
  - intros pre s1 ->. rewrite !map_app. repeat split; eapply get_numbered_last; reflexivity.
  - do 4 eexists. do 4 (split; [reflexivity|]). repeat split; intros; try (unfold numbered; rewrite combine_length, seq_length, map_length; lia); apply numbered_steps; auto.
Qed.
(** so the two parsers agree on them: always on 'initial', on 'last' but for two steps of one
    atom, on 'all' but for these and for a single step *)
Theorem C55_vasprun_steps_agree : forall x n steps energies kbb p p' sp, vasp_run x n steps energies -> parsew x kbb true = Ok p -> parsee kbb (events None x) = Ok p' -> p_species p = Some sp -> length sp = n -> 0 < n ->
  forall status, (status = lit "initial" \/ status = lit "last" /\ ~ (n = 1 /\ length steps = 2) \/ status = lit "all" /\ ~ (n = 1 /\ length steps = 2) /\ 2 <= length steps) ->
  get_unitcell p' status = get_unitcell p status /\ get_positions p' status = get_positions p status /\ get_forces p' status = get_forces p status /\ get_stress p' status = get_stress p status.
Proof.
  intros x n steps energies kbb p p' sp R P P' SP L N status ST. destruct (run_calcs _ _ _ _ R) as [C NE].
  assert (steps_run x kbb p sp steps) as SR by (unfold steps_run; rewrite L; auto). destruct (c54_data _ _ _ _ _ SR NE) as (DC & DP & DF & DS). rewrite L in DP, DF.
  rewrite (agree_run _ _ _ _ _ _ _ _ R P P'). unfold get_unitcell, get_positions, get_forces, get_stress, event_result. cbn [p_cell p_pos p_force p_stress set_p_diel set_p_cell set_p_pos set_p_force set_p_stress]. rewrite DC, DP, DF, DS.
  destruct ST as [->|[[-> A]|[-> [A B]]]].
  - destruct steps as [|s0 r]; [congruence|]. assert (forall (g : ion_step -> matrix), hd_error (map g (s0 :: r)) = Some (g s0)) as HD by reflexivity. repeat split; erewrite get_numbered_initial, get_initial by apply HD; reflexivity.
  - destruct (exists_last NE) as (pre & s1 & ->). rewrite !map_app. assert (forall (g : ion_step -> matrix), ~ (n = 1 /\ length (map g pre ++ map g [s1]) = 2)) as A' by (intros g; rewrite <- map_app, map_length; auto).
    assert (forall (g : ion_step -> matrix), ~ (3 = 1 /\ length (map g pre ++ map g [s1]) = 2)) as A3 by (intros g [Z _]; discriminate).
    cbn [map] in *. repeat split; (erewrite get_numbered_last by reflexivity); (erewrite get_last by auto); reflexivity.
  - assert (forall (g : ion_step -> matrix), ~ (n = 1 /\ length (map g steps) = 2)) as A' by (intros g; rewrite map_length; auto).
    assert (forall (g : ion_step -> matrix), ~ (3 = 1 /\ length (map g steps) = 2)) as A3 by (intros g [Z _]; discriminate).
    assert (forall (g : ion_step -> matrix), 2 <= length (map g steps)) as B' by (intros g; rewrite map_length; auto).
    rewrite !step_dict_more by auto. auto.
Qed.
