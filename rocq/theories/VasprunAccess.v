(** More accessors of parsevasp/vasprun.py. *)
From Coq Require Import Ascii String List NArith ZArith Bool.
From Verif Require Import PyBase PyNum VasprunTypes VasprunXml VasprunModel.
Import ListNotations.
Local Open Scope list_scope.

(** 3116-3135 get_lattice: a dict with the keys 'unitcell', 'positions' and 'species' *)
Record lattice := Lattice { la_unitcell : per_step (option matrix); la_positions : per_step (option matrix); la_species : option (list Z) }.
Definition get_lattice (p : parsed) (status : str) : res lattice :=
  let species := p_species p in
  let* unitcell := get_unitcell p status in
  let* positions := get_positions p status in
  Ok (Lattice unitcell positions species).
(** The accessors that return an entry of the dictionaries: 2929-2970, 3022-3036, 3102-3114,
    3137-3165, 3331-3492 *)
Definition get_species := p_species.
Definition get_kpoints := p_kpoints.
Definition get_kpointsw := p_kpointsw.
Definition get_kpoints_specific := p_kpoints_specific.
Definition get_kpointsw_specific := p_kpointsw_specific.
Definition get_eigenvalues := p_eigenvalues.
Definition get_eigenvalues_specific := p_eigenvalues_specific.
Definition get_eigenvelocities := p_velocities.
Definition get_occupancies := p_occupancies.
Definition get_projectors := p_projectors.
Definition get_dos := p_dos.
Definition get_dos_specific := p_dos_specific.
Definition get_dielectrics := p_diel.
Definition get_hessian := p_hessian.
Definition get_dynmat := p_dynmat.
Definition get_born := p_born.

(** 3494-3522 get_dict, get_parameters; the dictionaries of 127-163.  An entry of a dictionary *)
Inductive entry :=
| Float_ (v : option float) | Int_ (v : option Z) | Text_ (v : option str) | Ints_ (v : option (list Z))
| Steps_ (v : option (ndict (option matrix))) | Table_ (v : option matrix) | Row_ (v : option row)
| Bands_ (v : option (spins matrix)) | Velocities_ (v : option (spins (list matrix))) | Projectors_ (v : option (spins (list (list matrix))))
| Dos_ (v : option ddict) | Energies_ (v : option (ndict tot)) | Diel_ (v : option diel) | Dynmat_ (v : option dynm) | Born_ (v : born).
Local Open Scope string_scope.
Definition get_parameters (p : parsed) : list (string * entry) :=
  [("symprec", Float_ (p_symprec p)); ("ismear", Int_ (p_ismear p)); ("sigma", Float_ (p_sigma p)); ("ispin", Int_ (p_ispin p)); ("nbands", Int_ (p_nbands p));
   ("nelect", Float_ (p_nelect p)); ("system", Text_ (p_system p)); ("nelm", Int_ (p_nelm p)); ("nsw", Int_ (p_nsw p))].
Definition lattice_dict (p : parsed) : list (string * entry) :=
  [("unitcell", Steps_ (p_cell p)); ("species", Ints_ (p_species p)); ("positions", Steps_ (p_pos p)); ("kpoints", Table_ (p_kpoints p)); ("kpointsw", Row_ (p_kpointsw p)); ("kpointdiv", Ints_ (p_kdiv p))].
Definition data_dict (p : parsed) : list (string * entry) :=
  [("eigenvalues", Bands_ (p_eigenvalues p)); ("eigenvalues_specific", Bands_ (p_eigenvalues_specific p)); ("eigenvelocities", Velocities_ (p_velocities p));
   ("kpoints", Table_ (p_kpoints_specific p)); ("kpointsw", Row_ (p_kpointsw_specific p)); ("occupancies", Bands_ (p_occupancies p)); ("dos", Dos_ (p_dos p)); ("dos_specific", Dos_ (p_dos_specific p));
   ("totens", Energies_ (p_totens p)); ("forces", Steps_ (p_force p)); ("stress", Steps_ (p_stress p)); ("dielectrics", Diel_ (p_diel p)); ("projectors", Projectors_ (p_projectors p));
   ("hessian", Table_ (p_hessian p)); ("dynmat", Dynmat_ (p_dynmat p)); ("born", Born_ (p_born p))].
Definition get_dict (p : parsed) : list (string * list (string * entry)) := [("parameters", get_parameters p); ("lattice", lattice_dict p); ("data", data_dict p)].
