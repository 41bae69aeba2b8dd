(** Types of the vasprun model (generated by tools/gen_vasprun_types.py: records, one
    setter per field, and the table of elements of constants.py). *)
From Coq Require Import Ascii String List NArith ZArith Bool.
From Verif Require Import PyBase PyNum.
Import ListNotations.
Local Open Scope list_scope.

(** An element of the document: tag, attributes, the text before its first child (None
    if there is none), children.  Comments, processing instructions and the text after an
    element are not modelled: vasprun.py does not look at them *)
Inductive xml := Elem (tag : string) (attrs : list (string * string)) (text : option str) (kids : list xml).
Definition tag (e : xml) : string := match e with Elem t _ _ _ => t end.
Definition attrs (e : xml) : list (string * string) := match e with Elem _ a _ _ => a end.
Definition text (e : xml) : option str := match e with Elem _ _ t _ => t end.
Definition kids (e : xml) : list xml := match e with Elem _ _ _ k => k end.

Notation row := (list float).
Notation matrix := (list (list float)).
(** dictionaries whose keys are the numbers of the ionic steps, in order of insertion *)
Definition ndict (A : Type) := list (nat * A).
(** {'total': a} or {'up': a, 'down': b} *)
Inductive spins (A : Type) := Total (a : A) | UpDown (a b : A).
Arguments Total {A}. Arguments UpDown {A}.
(** the Born charges; [BornNones] is the tuple (None, None, None, None) of vasprun.py:1436 *)
Inductive born := BornNone | BornArray (a : list matrix) | BornNones.
(** one part of a density of states; None: no such key *)
Record dpart := DPart {
  dp_energy : option row;
  dp_total : option row;
  dp_integrated : option row;
  dp_partial : option (option (list matrix));
  dp_fermi : option (option float) }.
Definition set_dp_energy (v : option row) (s : dpart) : dpart := DPart v (dp_total s) (dp_integrated s) (dp_partial s) (dp_fermi s).
Definition set_dp_total (v : option row) (s : dpart) : dpart := DPart (dp_energy s) v (dp_integrated s) (dp_partial s) (dp_fermi s).
Definition set_dp_integrated (v : option row) (s : dpart) : dpart := DPart (dp_energy s) (dp_total s) v (dp_partial s) (dp_fermi s).
Definition set_dp_partial (v : option (option (list matrix))) (s : dpart) : dpart := DPart (dp_energy s) (dp_total s) (dp_integrated s) v (dp_fermi s).
Definition set_dp_fermi (v : option (option float)) (s : dpart) : dpart := DPart (dp_energy s) (dp_total s) (dp_integrated s) (dp_partial s) v.
(** a density of states: the keys 'up', 'down', 'total' *)
Record ddict := DDict {
  dd_up : option dpart;
  dd_down : option dpart;
  dd_all : option dpart }.
Definition set_dd_up (v : option dpart) (s : ddict) : ddict := DDict v (dd_down s) (dd_all s).
Definition set_dd_down (v : option dpart) (s : ddict) : ddict := DDict (dd_up s) v (dd_all s).
Definition set_dd_all (v : option dpart) (s : ddict) : ddict := DDict (dd_up s) (dd_down s) v.
(** the dielectric function; for epsilon and epsilon_ion the outer None: no such key *)
Record diel := Diel {
  di_energy : option row;
  di_imag : option matrix;
  di_real : option matrix;
  di_epsilon : option (option matrix);
  di_epsilon_ion : option (option matrix) }.
Definition set_di_energy (v : option row) (s : diel) : diel := Diel v (di_imag s) (di_real s) (di_epsilon s) (di_epsilon_ion s).
Definition set_di_imag (v : option matrix) (s : diel) : diel := Diel (di_energy s) v (di_real s) (di_epsilon s) (di_epsilon_ion s).
Definition set_di_real (v : option matrix) (s : diel) : diel := Diel (di_energy s) (di_imag s) v (di_epsilon s) (di_epsilon_ion s).
Definition set_di_epsilon (v : option (option matrix)) (s : diel) : diel := Diel (di_energy s) (di_imag s) (di_real s) v (di_epsilon_ion s).
Definition set_di_epsilon_ion (v : option (option matrix)) (s : diel) : diel := Diel (di_energy s) (di_imag s) (di_real s) (di_epsilon s) v.
(** the dynamical matrix; None: no such key *)
Record dynm := Dynm {
  dy_values : option row;
  dy_vectors : option matrix }.
Definition set_dy_values (v : option row) (s : dynm) : dynm := Dynm v (dy_vectors s).
Definition set_dy_vectors (v : option matrix) (s : dynm) : dynm := Dynm (dy_values s) v.
(** total energies of one ionic step; the outer None: no such key *)
Record tot := Tot {
  to_extrapolated : option row;
  to_free : option row;
  to_no_entropy : option row;
  to_extrapolated_final : option (option float);
  to_free_final : option (option float);
  to_no_entropy_final : option (option float) }.
Definition set_to_extrapolated (v : option row) (s : tot) : tot := Tot v (to_free s) (to_no_entropy s) (to_extrapolated_final s) (to_free_final s) (to_no_entropy_final s).
Definition set_to_free (v : option row) (s : tot) : tot := Tot (to_extrapolated s) v (to_no_entropy s) (to_extrapolated_final s) (to_free_final s) (to_no_entropy_final s).
Definition set_to_no_entropy (v : option row) (s : tot) : tot := Tot (to_extrapolated s) (to_free s) v (to_extrapolated_final s) (to_free_final s) (to_no_entropy_final s).
Definition set_to_extrapolated_final (v : option (option float)) (s : tot) : tot := Tot (to_extrapolated s) (to_free s) (to_no_entropy s) v (to_free_final s) (to_no_entropy_final s).
Definition set_to_free_final (v : option (option float)) (s : tot) : tot := Tot (to_extrapolated s) (to_free s) (to_no_entropy s) (to_extrapolated_final s) v (to_no_entropy_final s).
Definition set_to_no_entropy_final (v : option (option float)) (s : tot) : tot := Tot (to_extrapolated s) (to_free s) (to_no_entropy s) (to_extrapolated_final s) (to_free_final s) v.
(** what the object holds after parsing: vasprun.py:124-163 *)
Record parsed := Parsed {
  p_version : option str;
  p_symprec : option float;
  p_sigma : option float;
  p_ismear : option Z;
  p_ispin : option Z;
  p_nbands : option Z;
  p_nelect : option float;
  p_system : option str;
  p_nelm : option Z;
  p_nsw : option Z;
  p_species : option (list Z);
  p_cell : option (ndict (option matrix));
  p_pos : option (ndict (option matrix));
  p_force : option (ndict (option matrix));
  p_stress : option (ndict (option matrix));
  p_kpoints : option matrix;
  p_kpointsw : option row;
  p_kdiv : option (list Z);
  p_eigenvalues : option (spins matrix);
  p_occupancies : option (spins matrix);
  p_eigenvalues_specific : option (spins matrix);
  p_velocities : option (spins (list matrix));
  p_kpoints_specific : option matrix;
  p_kpointsw_specific : option row;
  p_dos : option ddict;
  p_dos_specific : option ddict;
  p_totens : option (ndict tot);
  p_diel : option diel;
  p_projectors : option (spins (list (list matrix)));
  p_hessian : option matrix;
  p_dynmat : option dynm;
  p_born : born }.
Definition set_p_version (v : option str) (s : parsed) : parsed := Parsed v (p_symprec s) (p_sigma s) (p_ismear s) (p_ispin s) (p_nbands s) (p_nelect s) (p_system s) (p_nelm s) (p_nsw s) (p_species s) (p_cell s) (p_pos s) (p_force s) (p_stress s) (p_kpoints s) (p_kpointsw s) (p_kdiv s) (p_eigenvalues s) (p_occupancies s) (p_eigenvalues_specific s) (p_velocities s) (p_kpoints_specific s) (p_kpointsw_specific s) (p_dos s) (p_dos_specific s) (p_totens s) (p_diel s) (p_projectors s) (p_hessian s) (p_dynmat s) (p_born s).
Definition set_p_symprec (v : option float) (s : parsed) : parsed := Parsed (p_version s) v (p_sigma s) (p_ismear s) (p_ispin s) (p_nbands s) (p_nelect s) (p_system s) (p_nelm s) (p_nsw s) (p_species s) (p_cell s) (p_pos s) (p_force s) (p_stress s) (p_kpoints s) (p_kpointsw s) (p_kdiv s) (p_eigenvalues s) (p_occupancies s) (p_eigenvalues_specific s) (p_velocities s) (p_kpoints_specific s) (p_kpointsw_specific s) (p_dos s) (p_dos_specific s) (p_totens s) (p_diel s) (p_projectors s) (p_hessian s) (p_dynmat s) (p_born s).
Definition set_p_sigma (v : option float) (s : parsed) : parsed := Parsed (p_version s) (p_symprec s) v (p_ismear s) (p_ispin s) (p_nbands s) (p_nelect s) (p_system s) (p_nelm s) (p_nsw s) (p_species s) (p_cell s) (p_pos s) (p_force s) (p_stress s) (p_kpoints s) (p_kpointsw s) (p_kdiv s) (p_eigenvalues s) (p_occupancies s) (p_eigenvalues_specific s) (p_velocities s) (p_kpoints_specific s) (p_kpointsw_specific s) (p_dos s) (p_dos_specific s) (p_totens s) (p_diel s) (p_projectors s) (p_hessian s) (p_dynmat s) (p_born s).
Definition set_p_ismear (v : option Z) (s : parsed) : parsed := Parsed (p_version s) (p_symprec s) (p_sigma s) v (p_ispin s) (p_nbands s) (p_nelect s) (p_system s) (p_nelm s) (p_nsw s) (p_species s) (p_cell s) (p_pos s) (p_force s) (p_stress s) (p_kpoints s) (p_kpointsw s) (p_kdiv s) (p_eigenvalues s) (p_occupancies s) (p_eigenvalues_specific s) (p_velocities s) (p_kpoints_specific s) (p_kpointsw_specific s) (p_dos s) (p_dos_specific s) (p_totens s) (p_diel s) (p_projectors s) (p_hessian s) (p_dynmat s) (p_born s).
Definition set_p_ispin (v : option Z) (s : parsed) : parsed := Parsed (p_version s) (p_symprec s) (p_sigma s) (p_ismear s) v (p_nbands s) (p_nelect s) (p_system s) (p_nelm s) (p_nsw s) (p_species s) (p_cell s) (p_pos s) (p_force s) (p_stress s) (p_kpoints s) (p_kpointsw s) (p_kdiv s) (p_eigenvalues s) (p_occupancies s) (p_eigenvalues_specific s) (p_velocities s) (p_kpoints_specific s) (p_kpointsw_specific s) (p_dos s) (p_dos_specific s) (p_totens s) (p_diel s) (p_projectors s) (p_hessian s) (p_dynmat s) (p_born s).
Definition set_p_nbands (v : option Z) (s : parsed) : parsed := Parsed (p_version s) (p_symprec s) (p_sigma s) (p_ismear s) (p_ispin s) v (p_nelect s) (p_system s) (p_nelm s) (p_nsw s) (p_species s) (p_cell s) (p_pos s) (p_force s) (p_stress s) (p_kpoints s) (p_kpointsw s) (p_kdiv s) (p_eigenvalues s) (p_occupancies s) (p_eigenvalues_specific s) (p_velocities s) (p_kpoints_specific s) (p_kpointsw_specific s) (p_dos s) (p_dos_specific s) (p_totens s) (p_diel s) (p_projectors s) (p_hessian s) (p_dynmat s) (p_born s).
Definition set_p_nelect (v : option float) (s : parsed) : parsed := Parsed (p_version s) (p_symprec s) (p_sigma s) (p_ismear s) (p_ispin s) (p_nbands s) v (p_system s) (p_nelm s) (p_nsw s) (p_species s) (p_cell s) (p_pos s) (p_force s) (p_stress s) (p_kpoints s) (p_kpointsw s) (p_kdiv s) (p_eigenvalues s) (p_occupancies s) (p_eigenvalues_specific s) (p_velocities s) (p_kpoints_specific s) (p_kpointsw_specific s) (p_dos s) (p_dos_specific s) (p_totens s) (p_diel s) (p_projectors s) (p_hessian s) (p_dynmat s) (p_born s).
Definition set_p_system (v : option str) (s : parsed) : parsed := Parsed (p_version s) (p_symprec s) (p_sigma s) (p_ismear s) (p_ispin s) (p_nbands s) (p_nelect s) v (p_nelm s) (p_nsw s) (p_species s) (p_cell s) (p_pos s) (p_force s) (p_stress s) (p_kpoints s) (p_kpointsw s) (p_kdiv s) (p_eigenvalues s) (p_occupancies s) (p_eigenvalues_specific s) (p_velocities s) (p_kpoints_specific s) (p_kpointsw_specific s) (p_dos s) (p_dos_specific s) (p_totens s) (p_diel s) (p_projectors s) (p_hessian s) (p_dynmat s) (p_born s).
Definition set_p_nelm (v : option Z) (s : parsed) : parsed := Parsed (p_version s) (p_symprec s) (p_sigma s) (p_ismear s) (p_ispin s) (p_nbands s) (p_nelect s) (p_system s) v (p_nsw s) (p_species s) (p_cell s) (p_pos s) (p_force s) (p_stress s) (p_kpoints s) (p_kpointsw s) (p_kdiv s) (p_eigenvalues s) (p_occupancies s) (p_eigenvalues_specific s) (p_velocities s) (p_kpoints_specific s) (p_kpointsw_specific s) (p_dos s) (p_dos_specific s) (p_totens s) (p_diel s) (p_projectors s) (p_hessian s) (p_dynmat s) (p_born s).
Definition set_p_nsw (v : option Z) (s : parsed) : parsed := Parsed (p_version s) (p_symprec s) (p_sigma s) (p_ismear s) (p_ispin s) (p_nbands s) (p_nelect s) (p_system s) (p_nelm s) v (p_species s) (p_cell s) (p_pos s) (p_force s) (p_stress s) (p_kpoints s) (p_kpointsw s) (p_kdiv s) (p_eigenvalues s) (p_occupancies s) (p_eigenvalues_specific s) (p_velocities s) (p_kpoints_specific s) (p_kpointsw_specific s) (p_dos s) (p_dos_specific s) (p_totens s) (p_diel s) (p_projectors s) (p_hessian s) (p_dynmat s) (p_born s).
Definition set_p_species (v : option (list Z)) (s : parsed) : parsed := Parsed (p_version s) (p_symprec s) (p_sigma s) (p_ismear s) (p_ispin s) (p_nbands s) (p_nelect s) (p_system s) (p_nelm s) (p_nsw s) v (p_cell s) (p_pos s) (p_force s) (p_stress s) (p_kpoints s) (p_kpointsw s) (p_kdiv s) (p_eigenvalues s) (p_occupancies s) (p_eigenvalues_specific s) (p_velocities s) (p_kpoints_specific s) (p_kpointsw_specific s) (p_dos s) (p_dos_specific s) (p_totens s) (p_diel s) (p_projectors s) (p_hessian s) (p_dynmat s) (p_born s).
Definition set_p_cell (v : option (ndict (option matrix))) (s : parsed) : parsed := Parsed (p_version s) (p_symprec s) (p_sigma s) (p_ismear s) (p_ispin s) (p_nbands s) (p_nelect s) (p_system s) (p_nelm s) (p_nsw s) (p_species s) v (p_pos s) (p_force s) (p_stress s) (p_kpoints s) (p_kpointsw s) (p_kdiv s) (p_eigenvalues s) (p_occupancies s) (p_eigenvalues_specific s) (p_velocities s) (p_kpoints_specific s) (p_kpointsw_specific s) (p_dos s) (p_dos_specific s) (p_totens s) (p_diel s) (p_projectors s) (p_hessian s) (p_dynmat s) (p_born s).
Definition set_p_pos (v : option (ndict (option matrix))) (s : parsed) : parsed := Parsed (p_version s) (p_symprec s) (p_sigma s) (p_ismear s) (p_ispin s) (p_nbands s) (p_nelect s) (p_system s) (p_nelm s) (p_nsw s) (p_species s) (p_cell s) v (p_force s) (p_stress s) (p_kpoints s) (p_kpointsw s) (p_kdiv s) (p_eigenvalues s) (p_occupancies s) (p_eigenvalues_specific s) (p_velocities s) (p_kpoints_specific s) (p_kpointsw_specific s) (p_dos s) (p_dos_specific s) (p_totens s) (p_diel s) (p_projectors s) (p_hessian s) (p_dynmat s) (p_born s).
Definition set_p_force (v : option (ndict (option matrix))) (s : parsed) : parsed := Parsed (p_version s) (p_symprec s) (p_sigma s) (p_ismear s) (p_ispin s) (p_nbands s) (p_nelect s) (p_system s) (p_nelm s) (p_nsw s) (p_species s) (p_cell s) (p_pos s) v (p_stress s) (p_kpoints s) (p_kpointsw s) (p_kdiv s) (p_eigenvalues s) (p_occupancies s) (p_eigenvalues_specific s) (p_velocities s) (p_kpoints_specific s) (p_kpointsw_specific s) (p_dos s) (p_dos_specific s) (p_totens s) (p_diel s) (p_projectors s) (p_hessian s) (p_dynmat s) (p_born s).
Definition set_p_stress (v : option (ndict (option matrix))) (s : parsed) : parsed := Parsed (p_version s) (p_symprec s) (p_sigma s) (p_ismear s) (p_ispin s) (p_nbands s) (p_nelect s) (p_system s) (p_nelm s) (p_nsw s) (p_species s) (p_cell s) (p_pos s) (p_force s) v (p_kpoints s) (p_kpointsw s) (p_kdiv s) (p_eigenvalues s) (p_occupancies s) (p_eigenvalues_specific s) (p_velocities s) (p_kpoints_specific s) (p_kpointsw_specific s) (p_dos s) (p_dos_specific s) (p_totens s) (p_diel s) (p_projectors s) (p_hessian s) (p_dynmat s) (p_born s).
Definition set_p_kpoints (v : option matrix) (s : parsed) : parsed := Parsed (p_version s) (p_symprec s) (p_sigma s) (p_ismear s) (p_ispin s) (p_nbands s) (p_nelect s) (p_system s) (p_nelm s) (p_nsw s) (p_species s) (p_cell s) (p_pos s) (p_force s) (p_stress s) v (p_kpointsw s) (p_kdiv s) (p_eigenvalues s) (p_occupancies s) (p_eigenvalues_specific s) (p_velocities s) (p_kpoints_specific s) (p_kpointsw_specific s) (p_dos s) (p_dos_specific s) (p_totens s) (p_diel s) (p_projectors s) (p_hessian s) (p_dynmat s) (p_born s).
Definition set_p_kpointsw (v : option row) (s : parsed) : parsed := Parsed (p_version s) (p_symprec s) (p_sigma s) (p_ismear s) (p_ispin s) (p_nbands s) (p_nelect s) (p_system s) (p_nelm s) (p_nsw s) (p_species s) (p_cell s) (p_pos s) (p_force s) (p_stress s) (p_kpoints s) v (p_kdiv s) (p_eigenvalues s) (p_occupancies s) (p_eigenvalues_specific s) (p_velocities s) (p_kpoints_specific s) (p_kpointsw_specific s) (p_dos s) (p_dos_specific s) (p_totens s) (p_diel s) (p_projectors s) (p_hessian s) (p_dynmat s) (p_born s).
Definition set_p_kdiv (v : option (list Z)) (s : parsed) : parsed := Parsed (p_version s) (p_symprec s) (p_sigma s) (p_ismear s) (p_ispin s) (p_nbands s) (p_nelect s) (p_system s) (p_nelm s) (p_nsw s) (p_species s) (p_cell s) (p_pos s) (p_force s) (p_stress s) (p_kpoints s) (p_kpointsw s) v (p_eigenvalues s) (p_occupancies s) (p_eigenvalues_specific s) (p_velocities s) (p_kpoints_specific s) (p_kpointsw_specific s) (p_dos s) (p_dos_specific s) (p_totens s) (p_diel s) (p_projectors s) (p_hessian s) (p_dynmat s) (p_born s).
Definition set_p_eigenvalues (v : option (spins matrix)) (s : parsed) : parsed := Parsed (p_version s) (p_symprec s) (p_sigma s) (p_ismear s) (p_ispin s) (p_nbands s) (p_nelect s) (p_system s) (p_nelm s) (p_nsw s) (p_species s) (p_cell s) (p_pos s) (p_force s) (p_stress s) (p_kpoints s) (p_kpointsw s) (p_kdiv s) v (p_occupancies s) (p_eigenvalues_specific s) (p_velocities s) (p_kpoints_specific s) (p_kpointsw_specific s) (p_dos s) (p_dos_specific s) (p_totens s) (p_diel s) (p_projectors s) (p_hessian s) (p_dynmat s) (p_born s).
Definition set_p_occupancies (v : option (spins matrix)) (s : parsed) : parsed := Parsed (p_version s) (p_symprec s) (p_sigma s) (p_ismear s) (p_ispin s) (p_nbands s) (p_nelect s) (p_system s) (p_nelm s) (p_nsw s) (p_species s) (p_cell s) (p_pos s) (p_force s) (p_stress s) (p_kpoints s) (p_kpointsw s) (p_kdiv s) (p_eigenvalues s) v (p_eigenvalues_specific s) (p_velocities s) (p_kpoints_specific s) (p_kpointsw_specific s) (p_dos s) (p_dos_specific s) (p_totens s) (p_diel s) (p_projectors s) (p_hessian s) (p_dynmat s) (p_born s).
Definition set_p_eigenvalues_specific (v : option (spins matrix)) (s : parsed) : parsed := Parsed (p_version s) (p_symprec s) (p_sigma s) (p_ismear s) (p_ispin s) (p_nbands s) (p_nelect s) (p_system s) (p_nelm s) (p_nsw s) (p_species s) (p_cell s) (p_pos s) (p_force s) (p_stress s) (p_kpoints s) (p_kpointsw s) (p_kdiv s) (p_eigenvalues s) (p_occupancies s) v (p_velocities s) (p_kpoints_specific s) (p_kpointsw_specific s) (p_dos s) (p_dos_specific s) (p_totens s) (p_diel s) (p_projectors s) (p_hessian s) (p_dynmat s) (p_born s).
Definition set_p_velocities (v : option (spins (list matrix))) (s : parsed) : parsed := Parsed (p_version s) (p_symprec s) (p_sigma s) (p_ismear s) (p_ispin s) (p_nbands s) (p_nelect s) (p_system s) (p_nelm s) (p_nsw s) (p_species s) (p_cell s) (p_pos s) (p_force s) (p_stress s) (p_kpoints s) (p_kpointsw s) (p_kdiv s) (p_eigenvalues s) (p_occupancies s) (p_eigenvalues_specific s) v (p_kpoints_specific s) (p_kpointsw_specific s) (p_dos s) (p_dos_specific s) (p_totens s) (p_diel s) (p_projectors s) (p_hessian s) (p_dynmat s) (p_born s).
Definition set_p_kpoints_specific (v : option matrix) (s : parsed) : parsed := Parsed (p_version s) (p_symprec s) (p_sigma s) (p_ismear s) (p_ispin s) (p_nbands s) (p_nelect s) (p_system s) (p_nelm s) (p_nsw s) (p_species s) (p_cell s) (p_pos s) (p_force s) (p_stress s) (p_kpoints s) (p_kpointsw s) (p_kdiv s) (p_eigenvalues s) (p_occupancies s) (p_eigenvalues_specific s) (p_velocities s) v (p_kpointsw_specific s) (p_dos s) (p_dos_specific s) (p_totens s) (p_diel s) (p_projectors s) (p_hessian s) (p_dynmat s) (p_born s).
Definition set_p_kpointsw_specific (v : option row) (s : parsed) : parsed := Parsed (p_version s) (p_symprec s) (p_sigma s) (p_ismear s) (p_ispin s) (p_nbands s) (p_nelect s) (p_system s) (p_nelm s) (p_nsw s) (p_species s) (p_cell s) (p_pos s) (p_force s) (p_stress s) (p_kpoints s) (p_kpointsw s) (p_kdiv s) (p_eigenvalues s) (p_occupancies s) (p_eigenvalues_specific s) (p_velocities s) (p_kpoints_specific s) v (p_dos s) (p_dos_specific s) (p_totens s) (p_diel s) (p_projectors s) (p_hessian s) (p_dynmat s) (p_born s).
Definition set_p_dos (v : option ddict) (s : parsed) : parsed := Parsed (p_version s) (p_symprec s) (p_sigma s) (p_ismear s) (p_ispin s) (p_nbands s) (p_nelect s) (p_system s) (p_nelm s) (p_nsw s) (p_species s) (p_cell s) (p_pos s) (p_force s) (p_stress s) (p_kpoints s) (p_kpointsw s) (p_kdiv s) (p_eigenvalues s) (p_occupancies s) (p_eigenvalues_specific s) (p_velocities s) (p_kpoints_specific s) (p_kpointsw_specific s) v (p_dos_specific s) (p_totens s) (p_diel s) (p_projectors s) (p_hessian s) (p_dynmat s) (p_born s).
Definition set_p_dos_specific (v : option ddict) (s : parsed) : parsed := Parsed (p_version s) (p_symprec s) (p_sigma s) (p_ismear s) (p_ispin s) (p_nbands s) (p_nelect s) (p_system s) (p_nelm s) (p_nsw s) (p_species s) (p_cell s) (p_pos s) (p_force s) (p_stress s) (p_kpoints s) (p_kpointsw s) (p_kdiv s) (p_eigenvalues s) (p_occupancies s) (p_eigenvalues_specific s) (p_velocities s) (p_kpoints_specific s) (p_kpointsw_specific s) (p_dos s) v (p_totens s) (p_diel s) (p_projectors s) (p_hessian s) (p_dynmat s) (p_born s).
Definition set_p_totens (v : option (ndict tot)) (s : parsed) : parsed := Parsed (p_version s) (p_symprec s) (p_sigma s) (p_ismear s) (p_ispin s) (p_nbands s) (p_nelect s) (p_system s) (p_nelm s) (p_nsw s) (p_species s) (p_cell s) (p_pos s) (p_force s) (p_stress s) (p_kpoints s) (p_kpointsw s) (p_kdiv s) (p_eigenvalues s) (p_occupancies s) (p_eigenvalues_specific s) (p_velocities s) (p_kpoints_specific s) (p_kpointsw_specific s) (p_dos s) (p_dos_specific s) v (p_diel s) (p_projectors s) (p_hessian s) (p_dynmat s) (p_born s).
Definition set_p_diel (v : option diel) (s : parsed) : parsed := Parsed (p_version s) (p_symprec s) (p_sigma s) (p_ismear s) (p_ispin s) (p_nbands s) (p_nelect s) (p_system s) (p_nelm s) (p_nsw s) (p_species s) (p_cell s) (p_pos s) (p_force s) (p_stress s) (p_kpoints s) (p_kpointsw s) (p_kdiv s) (p_eigenvalues s) (p_occupancies s) (p_eigenvalues_specific s) (p_velocities s) (p_kpoints_specific s) (p_kpointsw_specific s) (p_dos s) (p_dos_specific s) (p_totens s) v (p_projectors s) (p_hessian s) (p_dynmat s) (p_born s).
Definition set_p_projectors (v : option (spins (list (list matrix)))) (s : parsed) : parsed := Parsed (p_version s) (p_symprec s) (p_sigma s) (p_ismear s) (p_ispin s) (p_nbands s) (p_nelect s) (p_system s) (p_nelm s) (p_nsw s) (p_species s) (p_cell s) (p_pos s) (p_force s) (p_stress s) (p_kpoints s) (p_kpointsw s) (p_kdiv s) (p_eigenvalues s) (p_occupancies s) (p_eigenvalues_specific s) (p_velocities s) (p_kpoints_specific s) (p_kpointsw_specific s) (p_dos s) (p_dos_specific s) (p_totens s) (p_diel s) v (p_hessian s) (p_dynmat s) (p_born s).
Definition set_p_hessian (v : option matrix) (s : parsed) : parsed := Parsed (p_version s) (p_symprec s) (p_sigma s) (p_ismear s) (p_ispin s) (p_nbands s) (p_nelect s) (p_system s) (p_nelm s) (p_nsw s) (p_species s) (p_cell s) (p_pos s) (p_force s) (p_stress s) (p_kpoints s) (p_kpointsw s) (p_kdiv s) (p_eigenvalues s) (p_occupancies s) (p_eigenvalues_specific s) (p_velocities s) (p_kpoints_specific s) (p_kpointsw_specific s) (p_dos s) (p_dos_specific s) (p_totens s) (p_diel s) (p_projectors s) v (p_dynmat s) (p_born s).
Definition set_p_dynmat (v : option dynm) (s : parsed) : parsed := Parsed (p_version s) (p_symprec s) (p_sigma s) (p_ismear s) (p_ispin s) (p_nbands s) (p_nelect s) (p_system s) (p_nelm s) (p_nsw s) (p_species s) (p_cell s) (p_pos s) (p_force s) (p_stress s) (p_kpoints s) (p_kpointsw s) (p_kdiv s) (p_eigenvalues s) (p_occupancies s) (p_eigenvalues_specific s) (p_velocities s) (p_kpoints_specific s) (p_kpointsw_specific s) (p_dos s) (p_dos_specific s) (p_totens s) (p_diel s) (p_projectors s) (p_hessian s) v (p_born s).
Definition set_p_born (v : born) (s : parsed) : parsed := Parsed (p_version s) (p_symprec s) (p_sigma s) (p_ismear s) (p_ispin s) (p_nbands s) (p_nelect s) (p_system s) (p_nelm s) (p_nsw s) (p_species s) (p_cell s) (p_pos s) (p_force s) (p_stress s) (p_kpoints s) (p_kpointsw s) (p_kdiv s) (p_eigenvalues s) (p_occupancies s) (p_eigenvalues_specific s) (p_velocities s) (p_kpoints_specific s) (p_kpointsw_specific s) (p_dos s) (p_dos_specific s) (p_totens s) (p_diel s) (p_projectors s) (p_hessian s) (p_dynmat s) v.
(** the variables of _parsee (vasprun.py:262-360): flags is a bit mask of the extract_... variables; data to data6; [specific], [has_dynmat]: _data['dos_specific'] (_data['dynmat']) is the object in the variable dos (dynmat); out: the attributes set so far *)
Record est := Est {
  s_flags : N;
  s_calc : nat;
  s_data : list xml;
  s_data2 : list xml;
  s_data3 : list xml;
  s_data4 : list xml;
  s_data5 : list xml;
  s_data6 : list xml;
  s_cell : ndict (option matrix);
  s_pos : ndict (option matrix);
  s_force : ndict (option matrix);
  s_stress : ndict (option matrix);
  s_totens : ndict tot;
  s_dos : ddict;
  s_part1 : dpart;
  s_part2 : dpart;
  s_dynmat : dynm;
  s_specific : bool;
  s_has_dynmat : bool;
  s_out : parsed }.
Definition set_s_flags (v : N) (s : est) : est := Est v (s_calc s) (s_data s) (s_data2 s) (s_data3 s) (s_data4 s) (s_data5 s) (s_data6 s) (s_cell s) (s_pos s) (s_force s) (s_stress s) (s_totens s) (s_dos s) (s_part1 s) (s_part2 s) (s_dynmat s) (s_specific s) (s_has_dynmat s) (s_out s).
Definition set_s_calc (v : nat) (s : est) : est := Est (s_flags s) v (s_data s) (s_data2 s) (s_data3 s) (s_data4 s) (s_data5 s) (s_data6 s) (s_cell s) (s_pos s) (s_force s) (s_stress s) (s_totens s) (s_dos s) (s_part1 s) (s_part2 s) (s_dynmat s) (s_specific s) (s_has_dynmat s) (s_out s).
Definition set_s_data (v : list xml) (s : est) : est := Est (s_flags s) (s_calc s) v (s_data2 s) (s_data3 s) (s_data4 s) (s_data5 s) (s_data6 s) (s_cell s) (s_pos s) (s_force s) (s_stress s) (s_totens s) (s_dos s) (s_part1 s) (s_part2 s) (s_dynmat s) (s_specific s) (s_has_dynmat s) (s_out s).
Definition set_s_data2 (v : list xml) (s : est) : est := Est (s_flags s) (s_calc s) (s_data s) v (s_data3 s) (s_data4 s) (s_data5 s) (s_data6 s) (s_cell s) (s_pos s) (s_force s) (s_stress s) (s_totens s) (s_dos s) (s_part1 s) (s_part2 s) (s_dynmat s) (s_specific s) (s_has_dynmat s) (s_out s).
Definition set_s_data3 (v : list xml) (s : est) : est := Est (s_flags s) (s_calc s) (s_data s) (s_data2 s) v (s_data4 s) (s_data5 s) (s_data6 s) (s_cell s) (s_pos s) (s_force s) (s_stress s) (s_totens s) (s_dos s) (s_part1 s) (s_part2 s) (s_dynmat s) (s_specific s) (s_has_dynmat s) (s_out s).
Definition set_s_data4 (v : list xml) (s : est) : est := Est (s_flags s) (s_calc s) (s_data s) (s_data2 s) (s_data3 s) v (s_data5 s) (s_data6 s) (s_cell s) (s_pos s) (s_force s) (s_stress s) (s_totens s) (s_dos s) (s_part1 s) (s_part2 s) (s_dynmat s) (s_specific s) (s_has_dynmat s) (s_out s).
Definition set_s_data5 (v : list xml) (s : est) : est := Est (s_flags s) (s_calc s) (s_data s) (s_data2 s) (s_data3 s) (s_data4 s) v (s_data6 s) (s_cell s) (s_pos s) (s_force s) (s_stress s) (s_totens s) (s_dos s) (s_part1 s) (s_part2 s) (s_dynmat s) (s_specific s) (s_has_dynmat s) (s_out s).
Definition set_s_data6 (v : list xml) (s : est) : est := Est (s_flags s) (s_calc s) (s_data s) (s_data2 s) (s_data3 s) (s_data4 s) (s_data5 s) v (s_cell s) (s_pos s) (s_force s) (s_stress s) (s_totens s) (s_dos s) (s_part1 s) (s_part2 s) (s_dynmat s) (s_specific s) (s_has_dynmat s) (s_out s).
Definition set_s_cell (v : ndict (option matrix)) (s : est) : est := Est (s_flags s) (s_calc s) (s_data s) (s_data2 s) (s_data3 s) (s_data4 s) (s_data5 s) (s_data6 s) v (s_pos s) (s_force s) (s_stress s) (s_totens s) (s_dos s) (s_part1 s) (s_part2 s) (s_dynmat s) (s_specific s) (s_has_dynmat s) (s_out s).
Definition set_s_pos (v : ndict (option matrix)) (s : est) : est := Est (s_flags s) (s_calc s) (s_data s) (s_data2 s) (s_data3 s) (s_data4 s) (s_data5 s) (s_data6 s) (s_cell s) v (s_force s) (s_stress s) (s_totens s) (s_dos s) (s_part1 s) (s_part2 s) (s_dynmat s) (s_specific s) (s_has_dynmat s) (s_out s).
Definition set_s_force (v : ndict (option matrix)) (s : est) : est := Est (s_flags s) (s_calc s) (s_data s) (s_data2 s) (s_data3 s) (s_data4 s) (s_data5 s) (s_data6 s) (s_cell s) (s_pos s) v (s_stress s) (s_totens s) (s_dos s) (s_part1 s) (s_part2 s) (s_dynmat s) (s_specific s) (s_has_dynmat s) (s_out s).
Definition set_s_stress (v : ndict (option matrix)) (s : est) : est := Est (s_flags s) (s_calc s) (s_data s) (s_data2 s) (s_data3 s) (s_data4 s) (s_data5 s) (s_data6 s) (s_cell s) (s_pos s) (s_force s) v (s_totens s) (s_dos s) (s_part1 s) (s_part2 s) (s_dynmat s) (s_specific s) (s_has_dynmat s) (s_out s).
Definition set_s_totens (v : ndict tot) (s : est) : est := Est (s_flags s) (s_calc s) (s_data s) (s_data2 s) (s_data3 s) (s_data4 s) (s_data5 s) (s_data6 s) (s_cell s) (s_pos s) (s_force s) (s_stress s) v (s_dos s) (s_part1 s) (s_part2 s) (s_dynmat s) (s_specific s) (s_has_dynmat s) (s_out s).
Definition set_s_dos (v : ddict) (s : est) : est := Est (s_flags s) (s_calc s) (s_data s) (s_data2 s) (s_data3 s) (s_data4 s) (s_data5 s) (s_data6 s) (s_cell s) (s_pos s) (s_force s) (s_stress s) (s_totens s) v (s_part1 s) (s_part2 s) (s_dynmat s) (s_specific s) (s_has_dynmat s) (s_out s).
Definition set_s_part1 (v : dpart) (s : est) : est := Est (s_flags s) (s_calc s) (s_data s) (s_data2 s) (s_data3 s) (s_data4 s) (s_data5 s) (s_data6 s) (s_cell s) (s_pos s) (s_force s) (s_stress s) (s_totens s) (s_dos s) v (s_part2 s) (s_dynmat s) (s_specific s) (s_has_dynmat s) (s_out s).
Definition set_s_part2 (v : dpart) (s : est) : est := Est (s_flags s) (s_calc s) (s_data s) (s_data2 s) (s_data3 s) (s_data4 s) (s_data5 s) (s_data6 s) (s_cell s) (s_pos s) (s_force s) (s_stress s) (s_totens s) (s_dos s) (s_part1 s) v (s_dynmat s) (s_specific s) (s_has_dynmat s) (s_out s).
Definition set_s_dynmat (v : dynm) (s : est) : est := Est (s_flags s) (s_calc s) (s_data s) (s_data2 s) (s_data3 s) (s_data4 s) (s_data5 s) (s_data6 s) (s_cell s) (s_pos s) (s_force s) (s_stress s) (s_totens s) (s_dos s) (s_part1 s) (s_part2 s) v (s_specific s) (s_has_dynmat s) (s_out s).
Definition set_s_specific (v : bool) (s : est) : est := Est (s_flags s) (s_calc s) (s_data s) (s_data2 s) (s_data3 s) (s_data4 s) (s_data5 s) (s_data6 s) (s_cell s) (s_pos s) (s_force s) (s_stress s) (s_totens s) (s_dos s) (s_part1 s) (s_part2 s) (s_dynmat s) v (s_has_dynmat s) (s_out s).
Definition set_s_has_dynmat (v : bool) (s : est) : est := Est (s_flags s) (s_calc s) (s_data s) (s_data2 s) (s_data3 s) (s_data4 s) (s_data5 s) (s_data6 s) (s_cell s) (s_pos s) (s_force s) (s_stress s) (s_totens s) (s_dos s) (s_part1 s) (s_part2 s) (s_dynmat s) (s_specific s) v (s_out s).
Definition set_s_out (v : parsed) (s : est) : est := Est (s_flags s) (s_calc s) (s_data s) (s_data2 s) (s_data3 s) (s_data4 s) (s_data5 s) (s_data6 s) (s_cell s) (s_pos s) (s_force s) (s_stress s) (s_totens s) (s_dos s) (s_part1 s) (s_part2 s) (s_dynmat s) (s_specific s) (s_has_dynmat s) v.

(** constants.py:6-126 *)
Definition elements : list (string * Z) :=
  [("x", 0); ("h", 1); ("he", 2); ("li", 3); ("be", 4); ("b", 5); ("c", 6); ("n", 7); ("o", 8); ("f", 9);
   ("ne", 10); ("na", 11); ("mg", 12); ("al", 13); ("si", 14); ("p", 15); ("s", 16); ("cl", 17); ("ar", 18); ("k", 19);
   ("ca", 20); ("sc", 21); ("ti", 22); ("v", 23); ("cr", 24); ("mn", 25); ("fe", 26); ("co", 27); ("ni", 28); ("cu", 29);
   ("zn", 30); ("ga", 31); ("ge", 32); ("as", 33); ("se", 34); ("br", 35); ("kr", 36); ("rb", 37); ("sr", 38); ("y", 39);
   ("zr", 40); ("nb", 41); ("mo", 42); ("tc", 43); ("ru", 44); ("rh", 45); ("pd", 46); ("ag", 47); ("cd", 48); ("in", 49);
   ("sn", 50); ("sb", 51); ("te", 52); ("i", 53); ("xe", 54); ("cs", 55); ("ba", 56); ("la", 57); ("ce", 58); ("pr", 59);
   ("nd", 60); ("pm", 61); ("sm", 62); ("eu", 63); ("gd", 64); ("tb", 65); ("dy", 66); ("ho", 67); ("er", 68); ("tm", 69);
   ("yb", 70); ("lu", 71); ("hf", 72); ("ta", 73); ("w", 74); ("re", 75); ("os", 76); ("ir", 77); ("pt", 78); ("au", 79);
   ("hg", 80); ("tl", 81); ("pb", 82); ("bi", 83); ("po", 84); ("at", 85); ("rn", 86); ("fr", 87); ("ra", 88); ("ac", 89);
   ("th", 90); ("pa", 91); ("u", 92); ("np", 93); ("pu", 94); ("am", 95); ("cm", 96); ("bk", 97); ("cf", 98); ("es", 99);
   ("fm", 100); ("md", 101); ("no", 102); ("lr", 103); ("rf", 104); ("db", 105); ("sg", 106); ("bh", 107); ("hs", 108); ("mt", 109);
   ("ds", 110); ("rg", 111); ("cn", 112); ("uut", 113); ("uuq", 114); ("uup", 115); ("uuh", 116); ("uus", 117); ("uuo", 118)]%string%Z.
