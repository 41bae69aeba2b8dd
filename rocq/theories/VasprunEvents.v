(** Model of parsevasp/vasprun.py:262-1093, the event driven parser _parsee, and of the
    constructor that chooses between the two parsers. *)
From Coq Require Import Ascii String List NArith ZArith Bool Lia.
From Verif Require Import PyBase PyNum UtilsModel LineModel OutcarModel ChgcarModel VasprunTypes VasprunXml VasprunModel.
Import ListNotations.
Local Open Scope list_scope.
Local Open Scope bool_scope.

(** ** Events *)
(** What iterparse(..., events=('start', 'end')) delivers: the start of an element with the
    attributes of its parent (None: no parent), and its end.  [seen]: the text of the element
    has been read when its start event is delivered (iterparse reads the source in pieces; a
    text at the border of a piece is not there yet).  At the end event it is there. *)
Inductive event := Start (seen : bool) (parent : option (list (string * string))) (e : xml) | End (e : xml).
(** the events of a document, all texts seen at once *)
Fixpoint events (parent : option (list (string * string))) (e : xml) : list event :=
  match e with Elem t a x ks => Start true parent e :: flat_map (events (Some a)) ks ++ [End e] end.

(** ** The variables extract_... of 283-334: bits of one number *)
Definition fGenerator := 0%N.       Definition fParameters := 1%N.     Definition fCalculation := 2%N.
Definition fLattice := 3%N.         Definition fCell := 4%N.           Definition fPositions := 5%N.
Definition fSpecies := 6%N.         Definition fKdata := 7%N.          Definition fKpoints := 8%N.
Definition fKpointsw := 9%N.        Definition fKspecific := 10%N.     Definition fKwspecific := 11%N.
Definition fEigen := 12%N.          Definition fEigenSpecific := 13%N. Definition fEigen1 := 14%N.
Definition fEigen2 := 15%N.         Definition fVelocities := 16%N.    Definition fVelocities1 := 17%N.
Definition fVelocities2 := 18%N.    Definition fDos := 19%N.           Definition fDosSpecific := 20%N.
Definition fDos1 := 21%N.           Definition fDos2 := 22%N.          Definition fDosS1 := 23%N.
Definition fDosS2 := 24%N.          Definition fProjected := 25%N.     Definition fForces := 26%N.
Definition fStress := 27%N.         Definition fEnergies := 28%N.      Definition fE0 := 29%N.
Definition fEfr := 30%N.            Definition fEwo := 31%N.           Definition fScstep := 32%N.
Definition fDiel := 33%N.           Definition fProj := 34%N.          Definition fProj1 := 35%N.
Definition fProj2 := 36%N.          Definition fDynmat := 37%N.        Definition fDynEigen := 38%N.
Definition fHessian := 39%N.        Definition fBorn := 40%N.
Definition is_on (f : N) (s : est) : bool := N.testbit (s_flags s) f.
Definition on (f : N) (s : est) : est := set_s_flags (N.setbit (s_flags s) f) s.
Definition off (f : N) (s : est) : est := set_s_flags (N.clearbit (s_flags s) f) s.

(** ** Blocks of statements *)
Definition block := est -> res est.
Definition pass : block := fun s => Ok s.
Definition seqb_ (f g : block) : block := fun s => let* s := f s in g s.
Infix ">>" := seqb_ (at level 60, right associativity).
Definition do_ (f : est -> est) : block := fun s => Ok (f s).
Definition when_ (c : bool) (f : block) : block := if c then f else pass.
Definition guard (c : est -> bool) (f : block) : block := fun s => if c s then f s else Ok s.
(** assignments to self._... *)
Definition out_ (f : parsed -> parsed) (s : est) : est := set_s_out (f (s_out s)) s.
Definition clear (s : est) : est := set_s_data [] s.
Definition clear2 (s : est) : est := set_s_data2 [] (set_s_data [] s).
Definition truth {A} (l : list A) : bool := match l with [] => false | _ => true end.
(** num_atoms, or exit 501 (ERROR_NO_SPECIES) *)
Definition atoms_of (s : est) : res nat := match p_species (s_out s) with Some sp => Ok (length sp) | None => Exn (SysExit 501) end.
Definition second (l : list xml) : option (list xml) := match l with [] => None | _ => Some l end.
Definition no_part : dpart := DPart None None None None None.
Definition part_empty (p : dpart) : bool :=
  match p with DPart None None None None None => true | _ => false end.

Section Step.
Variable k_before_band : bool.
Variable st : bool.                                      (* event == 'start' *)
Variable seen : bool.
Variable parent : option (list (string * string)).
Variable e : xml.
Definition start (t : string) : bool := st && String.eqb t (tag e).
Definition ends (t : string) : bool := negb st && String.eqb t (tag e).
Definition name_is (n : string) : bool := opt_is n (attr e "name").           (* element.attrib.get('name') == n *)
Definition comment_is (n : string) : bool := opt_is n (attr e "comment").
(** element.attrib['name'] == n, a KeyError without the attribute *)
Definition named (n : string) (f : block) : block := fun s =>
  match attr e "name" with None => Exn KeyError | Some v => if String.eqb n v then f s else Ok s end.
(** element.text at a start event *)
Definition start_text : option str := if seen then text e else None.
Definition flag_from (t : string) (f : N) : block := when_ (start t) (do_ (on f)) >> when_ (ends t) (do_ (off f)).
Definition flag_set (n : string) (f : N) : block :=
  when_ (start "set" && comment_is n) (do_ (on f)) >> when_ (ends "set" && comment_is n) (do_ (off f)).
Definition push (s : est) : est := set_s_data (s_data s ++ [e]) s.
Definition push2 (s : est) : est := set_s_data2 (s_data2 s ++ [e]) s.
Definition collect (f : N) (t : string) : block := guard (is_on f) (when_ (start t) (do_ push)).
Definition collect2 (f : N) (t : string) : block := guard (is_on f) (when_ (start t) (do_ push2)).
(** totens[calc].update(...) *)
Definition update_totens (f : tot -> tot) : block := fun s =>
  let* t := of_option KeyError (ndget (s_calc s) (s_totens s)) in
  Ok (set_s_totens (ndset (s_calc s) (f t) (s_totens s)) s).

(** 348-399: what to read *)
Definition calculation_start : block := when_ (start "calculation") (do_ (fun s =>
  on fCalculation (set_s_totens (ndset (s_calc s) (Tot None None None None None None) (s_totens s)) s))).
Definition calculation_end : block := when_ (ends "calculation") (fun s =>
  let* a := convert1D (s_data3 s) in let* b := convert1D (s_data4 s) in let* c := convert1D (s_data5 s) in
  let* s := update_totens (fun t => set_to_extrapolated (Some a) (set_to_free (Some b) (set_to_no_entropy (Some c) t))) s in
  Ok (off fCalculation (set_s_calc (S (s_calc s)) (set_s_data3 [] (set_s_data4 [] (set_s_data5 [] s)))))).
Definition atoms_block : block :=
  when_ (start "array" && name_is "atoms") (do_ (on fSpecies)) >>
  when_ (ends "array" && name_is "atoms") (fun s =>
    let* sp := convert_species (every_other (s_data s)) in
    Ok (off fSpecies (clear (out_ (set_p_species (Some sp)) s)))).
Definition kpoints_flag : block :=
  guard (fun s => negb (is_on fCalculation s)) (when_ (start "kpoints") (do_ (on fKdata))) >>
  guard (fun s => negb (is_on fCalculation s)) (when_ (ends "kpoints") (do_ (off fKdata))).
(** 401-456: version and parameters.  A KeyError of element.attrib['name'] is caught *)
Definition param_block (n : string) (f : block) : block := when_ (st && name_is n) f.
Definition pf (f : option float -> parsed -> parsed) : block := fun s => let* v := convert_f start_text in Ok (out_ (f v) s).
Definition pi (f : option Z -> parsed -> parsed) : block := fun s => let* v := convert_i start_text in Ok (out_ (f v) s).
(** 446-451: the name of the parent decides; without a parent an AttributeError *)
Definition nelm_block : block := fun s =>
  match parent with
  | None => Exn AttributeError
  | Some a => if opt_is "electronic convergence" (assoc "name" a) then pi set_p_nelm s else Ok s
  end.
Definition parameters_block : block :=
  param_block "SYMPREC" (pf set_p_symprec) >> param_block "ISPIN" (pi set_p_ispin) >> param_block "ISMEAR" (pi set_p_ismear) >>
  param_block "SIGMA" (pf set_p_sigma) >> param_block "NBANDS" (pi set_p_nbands) >> param_block "NELECT" (pf set_p_nelect) >>
  param_block "SYSTEM" (do_ (out_ (set_p_system start_text))) >> param_block "NELM" nelm_block >> param_block "NSW" (pi set_p_nsw).
(** 465-483, 542-560: the end of the total density of states *)
Definition dos_total : block := fun s =>
  let* a := convert2D 3 (s_data s) in
  let s := set_s_part1 (set_dp_energy (Some (column 0 a)) (set_dp_total (Some (column 1 a)) (set_dp_integrated (Some (column 2 a)) (set_dp_partial (Some None) (s_part1 s))))) s in
  let* s := match second (s_data2 s) with
            | None => Ok s
            | Some d2 => let* b := convert2D 3 d2 in
                         Ok (set_s_part2 (set_dp_total (Some (column 1 b)) (set_dp_integrated (Some (column 2 b)) (set_dp_partial (Some None) (s_part2 s)))) s)
            end in
  Ok (clear2 s).
(** 484-504, 561-581: the end of the partial density of states *)
Definition dos_partial : block := fun s =>
  let* n := atoms_of s in
  let* a := partial_dos n (s_data s) in
  let s := set_s_part1 (set_dp_partial (Some (Some a)) (s_part1 s)) s in
  let* s := match second (s_data2 s) with
            | None => Ok s
            | Some d2 => let* b := partial_dos n d2 in Ok (set_s_part2 (set_dp_partial (Some (Some b)) (s_part2 s)) s)
            end in
  Ok (clear2 s).
(** 505-536, 582-613: the end of the density of states.  [store] keeps the dict *)
Definition dos_end (store : est -> est) (f : N) : block := fun s =>
  let* fermi := match s_data6 s with [] => Ok None | [x] => convert_f (text x) | _ => Exn (SysExit 500) end in
  let p1 := s_part1 s in
  let p2 := s_part2 s in
  let* d := if part_empty p2 then Ok (set_dd_all (Some (set_dp_fermi (Some fermi) p1)) (s_dos s))
            else let* en := of_option KeyError (dp_energy p1) in
                 Ok (DDict (Some (set_dp_energy None p1)) (Some p2) (Some (DPart (Some en) None None None (Some fermi)))) in
  let s := store (set_s_dos d s) in
  Ok (off f (set_s_part1 no_part (set_s_part2 no_part (set_s_data6 [] (clear2 s))))).
Definition dos_block : block :=
  when_ (start "dos" && match attr e "comment" with None => true | Some _ => false end) (do_ (on fDos)) >>
  guard (is_on fDos) (when_ (ends "total") dos_total) >>
  guard (is_on fDos) (when_ (ends "partial") dos_partial) >>
  guard (is_on fDos) (when_ (ends "dos") (dos_end (fun s => out_ (set_p_dos (Some (s_dos s))) s) fDos)) >>
  when_ (start "dos" && comment_is "interpolated") (do_ (on fDosSpecific)) >>
  guard (is_on fDosSpecific) (when_ (ends "total") dos_total) >>
  guard (is_on fDosSpecific) (when_ (ends "partial") dos_partial) >>
  guard (is_on fDosSpecific) (when_ (ends "dos") (dos_end (set_s_specific true) fDosSpecific)).
(** 615-637 *)
Definition forces_block : block :=
  flag_from "structure" fLattice >>
  when_ (start "varray") (named "forces" (do_ (on fForces))) >>
  when_ (ends "varray") (named "forces" (fun s =>
    let* m := convert2D 3 (s_data s) in Ok (off fForces (clear (set_s_force (ndset (s_calc s) (Some m) (s_force s)) s))))) >>
  when_ (start "varray") (named "stress" (do_ (on fStress))) >>
  when_ (ends "varray") (named "stress" (fun s =>
    let* m := convert2D 3 (s_data s) in Ok (off fStress (clear (set_s_stress (ndset (s_calc s) (Some m) (s_stress s)) s))))).
(** 638-645 *)
Definition energy_flags : block :=
  guard (fun s => negb (is_on fScstep s)) (when_ (start "energy") (do_ (on fEnergies))) >>
  guard (fun s => negb (is_on fScstep s)) (when_ (ends "energy") (do_ (off fEnergies))) >>
  flag_from "scstep" fScstep.
(** 646-686 *)
Definition eigen_block : block :=
  guard (fun s => negb (is_on fVelocities s) && negb (comment_is "interpolated") && negb (is_on fEigenSpecific s))
        (when_ (start "eigenvalues") (do_ (on fEigen))) >>
  guard (is_on fEigen) (when_ (ends "eigenvalues") (fun s =>
    let* n := olen (p_kpoints (s_out s)) in
    let* (v, o) := extract_eigenvalues k_before_band (p_ispin (s_out s)) (p_nbands (s_out s)) (s_data s) (second (s_data2 s)) n in
    Ok (off fEigen (clear2 (out_ (fun p => set_p_occupancies o (set_p_eigenvalues (Some v) p)) s))))) >>
  when_ (start "eigenvalues" && comment_is "interpolated") (do_ (on fEigenSpecific)) >>
  guard (is_on fEigenSpecific) (when_ (ends "eigenvalues") (fun s =>
    let* n := olen (p_kpoints_specific (s_out s)) in
    let* (v, _) := extract_eigenvalues k_before_band (p_ispin (s_out s)) (p_nbands (s_out s)) (s_data s) (second (s_data2 s)) n in
    Ok (off fEigenSpecific (clear2 (out_ (set_p_eigenvalues_specific (Some v)) s))))) >>
  when_ (start "eigenvelocities") (do_ (on fVelocities)) >>
  when_ (ends "eigenvelocities") (fun s =>
    let* n := olen (p_kpoints_specific (s_out s)) in
    let* v := extract_eigenvelocities k_before_band (p_ispin (s_out s)) (p_nbands (s_out s)) (s_data s) (second (s_data2 s)) n in
    Ok (off fVelocities (clear2 (out_ (set_p_velocities (Some v)) s)))).
(** 687-715: np.split in two halves; no epsilon *)
Definition diel_block : block :=
  when_ (start "dielectricfunction") (do_ (on fDiel)) >>
  when_ (ends "dielectricfunction") (fun s =>
    let* m := convert2D 7 (s_data s) in
    let* h := split_even 2 m in
    let im := nth 0 h [] in let re := nth 1 h [] in
    Ok (off fDiel (clear (out_ (set_p_diel (Some (Diel (Some (column 0 im)) (Some (columns_from1 im)) (Some (columns_from1 re)) None None))) s)))) >>
  when_ (start "dynmat") (do_ (on fDynmat)) >>
  when_ (ends "dynmat") (do_ (fun s => off fDynmat (set_s_has_dynmat true s))) >>
  when_ (start "array" && name_is "born_charges") (do_ (on fBorn)) >>
  when_ (ends "array" && name_is "born_charges") (fun s =>
    let* n := atoms_of s in
    let* m := convert2D 3 (s_data s) in
    let* b := split_even n m in
    Ok (off fBorn (clear (out_ (set_p_born (BornArray b)) s)))).
(** 717-744 *)
Definition scstep_one (n : string) (f : N) (add : est -> est) : block :=
  when_ (start "i") (named n (do_ (on f))) >> when_ (ends "i") (named n (do_ (off f))) >> guard (is_on f) (do_ add).
Definition scstep_block : block := guard (is_on fScstep) (
  scstep_one "e_0_energy" fE0 (fun s => set_s_data3 (s_data3 s ++ [e]) s) >>
  scstep_one "e_fr_energy" fEfr (fun s => set_s_data4 (s_data4 s ++ [e]) s) >>
  scstep_one "e_wo_entrp" fEwo (fun s => set_s_data5 (s_data5 s ++ [e]) s)).
(** 745-769 *)
Definition lattice_block : block := guard (is_on fLattice) (
  when_ (start "varray" && name_is "basis") (do_ (on fCell)) >>
  when_ (ends "varray" && name_is "basis") (fun s =>
    let* m := convert2D 3 (s_data s) in Ok (off fCell (clear (set_s_cell (ndset (s_calc s) (Some m) (s_cell s)) s)))) >>
  when_ (start "varray" && name_is "positions") (do_ (on fPositions)) >>
  when_ (ends "varray" && name_is "positions") (fun s =>
    let* m := convert2D 3 (s_data s) in Ok (off fPositions (clear (set_s_pos (ndset (s_calc s) (Some m) (s_pos s)) s)))) >>
  collect fCell "v" >> collect fPositions "v").
(** 779-791: float(element.text) *)
Definition final_energy (n : string) (f : option (option float) -> tot -> tot) : block :=
  when_ (start "i") (named n (fun s =>
    let* t := of_option TypeError start_text in let* v := OutcarModel.to_float t in update_totens (f (Some (Some v))) s)).
Definition energies_block : block := guard (is_on fEnergies) (
  final_energy "e_0_energy" set_to_extrapolated_final >> final_energy "e_fr_energy" set_to_free_final >>
  final_energy "e_wo_entrp" set_to_no_entropy_final).
(** 793-811 *)
Definition eigen_rows : block := guard (is_on fEigen) (
  flag_set "spin 1" fEigen1 >> flag_set "spin 2" fEigen2 >> collect fEigen1 "r" >> collect2 fEigen2 "r").
(** 813-828, 853-868: k-points of interpolated bands, of velocities *)
Definition specific_k : block :=
  when_ (start "varray" && name_is "kpointlist") (do_ (on fKspecific)) >>
  when_ (ends "varray" && name_is "kpointlist") (fun s =>
    let* m := convert2D 3 (s_data s) in Ok (off fKspecific (clear (out_ (set_p_kpoints_specific (Some m)) s)))) >>
  when_ (start "varray" && name_is "weights") (do_ (on fKwspecific)) >>
  when_ (ends "varray" && name_is "weights") (fun s =>
    let* w := convert1D (s_data s) in Ok (off fKwspecific (clear (out_ (set_p_kpointsw_specific (Some w)) s)))).
(** 813-851 *)
Definition eigen_specific_rows : block := guard (is_on fEigenSpecific) (
  specific_k >> flag_set "spin 1" fEigen1 >> flag_set "spin 2" fEigen2 >>
  collect fKspecific "v" >> collect fKwspecific "v" >> collect fEigen1 "r" >> collect2 fEigen2 "r").
(** 853-891 *)
Definition velocity_rows : block := guard (is_on fVelocities) (
  specific_k >> flag_set "spin 1" fVelocities1 >> flag_set "spin 2" fVelocities2 >>
  collect fKspecific "v" >> collect fKwspecific "v" >> collect fVelocities1 "r" >> collect2 fVelocities2 "r").
(** 897-930 *)
Definition projected_block : block := guard (is_on fProjected) (
  when_ (ends "eigenvalues") (do_ (on fProj)) >>
  guard (is_on fProj) (when_ (ends "array") (fun s =>
    let o := s_out s in
    let* p := extract_projectors k_before_band (p_kpoints o) (p_ispin o) (p_nbands o) (p_species o) (s_data s) (second (s_data2 s)) in
    Ok (off fProj (clear2 (out_ (set_p_projectors (Some p)) s))))) >>
  guard (is_on fProj) (
    flag_set "spin1" fProj1 >> flag_set "spin2" fProj2 >> collect fProj1 "r" >> collect2 fProj2 "r")).
(** 932-977 *)
Definition dynmat_block : block := guard (is_on fDynmat) (
  when_ (start "varray" && name_is "hessian") (do_ (on fHessian)) >>
  when_ (ends "varray" && name_is "hessian") (fun s =>
    let* n := atoms_of s in let* m := convert2D (n * 3) (s_data s) in
    Ok (off fHessian (clear (out_ (set_p_hessian (Some m)) s)))) >>
  when_ (start "varray" && name_is "eigenvectors") (do_ (on fDynEigen)) >>
  when_ (ends "varray" && name_is "eigenvectors") (fun s =>
    let* n := atoms_of s in let* m := convert2D (n * 3) (s_data s) in
    Ok (off fDynEigen (clear (set_s_dynmat (set_dy_vectors (Some m) (s_dynmat s)) s)))) >>
  collect fHessian "v" >> collect fDynEigen "v" >>
  when_ (st && name_is "eigenvalues") (fun s =>
    let* v := convert_array_f start_text in Ok (set_s_dynmat (set_dy_values (Some v) (s_dynmat s)) s))).
(** 458-981 *)
Definition calculation_block : block := guard (is_on fCalculation) (
  dos_block >> forces_block >> energy_flags >> eigen_block >> diel_block >>
  scstep_block >> lattice_block >> collect fForces "v" >> collect fStress "v" >> energies_block >>
  eigen_rows >> eigen_specific_rows >> velocity_rows >> collect fDiel "r" >> projected_block >> dynmat_block >>
  collect fBorn "v").
(** 987-1018 *)
Definition kpoints_block : block := guard (is_on fKdata) (
  when_ (start "v" && name_is "divisions") (fun s =>
    let* d := convert_array_i start_text in Ok (out_ (set_p_kdiv (Some d)) s)) >>
  when_ (start "varray" && name_is "kpointlist") (do_ (on fKpoints)) >>
  when_ (ends "varray" && name_is "kpointlist") (fun s =>
    let* m := convert2D 3 (s_data s) in Ok (off fKpoints (clear (out_ (set_p_kpoints (Some m)) s)))) >>
  when_ (start "varray" && name_is "weights") (do_ (on fKpointsw)) >>
  when_ (ends "varray" && name_is "weights") (fun s =>
    let* w := convert1D (s_data s) in Ok (off fKpointsw (clear (out_ (set_p_kpointsw (Some w)) s)))) >>
  collect fKpoints "v" >> collect fKpointsw "v").
(** 1020-1041, 1043-1064 *)
Definition dos_rows (f f1 f2 : N) : block := guard (is_on f) (
  when_ (start "i" && name_is "efermi") (do_ (fun s => set_s_data6 (s_data6 s ++ [e]) s)) >>
  flag_set "spin 1" f1 >> flag_set "spin 2" f2 >> collect f1 "r" >> collect2 f2 "r").
(** the body of the loop: 344-1064 *)
Definition step : block :=
  flag_from "generator" fGenerator >> flag_from "parameters" fParameters >> calculation_start >> calculation_end >>
  atoms_block >> kpoints_flag >> flag_from "projected" fProjected >>
  guard (is_on fGenerator) (param_block "version" (do_ (out_ (set_p_version start_text)))) >>
  guard (is_on fParameters) parameters_block >>
  calculation_block >>
  collect fSpecies "c" >> kpoints_block >> dos_rows fDos fDos1 fDos2 >> dos_rows fDosSpecific fDosS1 fDosS2.
End Step.

Definition handle (k_before_band : bool) (ev : event) : block :=
  match ev with Start seen parent e => step k_before_band true seen parent e | End e => step k_before_band false true None e end.
(** 124-163, 264-342: before the loop *)
Definition nothing : parsed :=
  Parsed None None None None None None None None None None None None None None None None None None None None None None None None None None None None None None None BornNone.
Definition start_state : est :=
  Est 0 1 [] [] [] [] [] [] [] [] [] [] [] (DDict None None None) no_part no_part (Dynm None None) false false nothing.
(** 1066-1093: after the loop.  A dict that was stored itself has its final content *)
Definition nonempty {A} (d : ndict A) : option (ndict A) := match d with [] => None | _ => Some d end.
Definition found_totens (d : ndict tot) : bool :=
  existsb (fun p => let t := snd p in
    let some_row (o : option row) := match o with Some (_ :: _) => true | _ => false end in
    let some_val (o : option (option float)) := match o with Some _ => true | None => false end in
    some_row (to_extrapolated t) || some_row (to_free t) || some_row (to_no_entropy t)
    || some_val (to_extrapolated_final t) || some_val (to_free_final t) || some_val (to_no_entropy_final t)) d.
Definition finish (s : est) : parsed :=
  let p := s_out s in
  let p := if s_specific s then set_p_dos_specific (Some (s_dos s)) p else p in
  let p := if s_has_dynmat s then set_p_dynmat (Some (s_dynmat s)) p else p in
  set_p_cell (nonempty (s_cell s)) (set_p_pos (nonempty (s_pos s)) (set_p_force (nonempty (s_force s)) (set_p_stress (nonempty (s_stress s))
    (set_p_totens (if found_totens (s_totens s) then Some (s_totens s) else None) p)))).
Definition run_events (k_before_band : bool) (evs : list event) (s : est) : res est :=
  foldM (fun s ev => handle k_before_band ev s) evs s.
Definition parsee (k_before_band : bool) (evs : list event) : res parsed :=
  let* s := run_events k_before_band evs start_state in Ok (finish s).

(** ** The constructor: 82-205.  lxml is a parameter: [parse_tree recover content] and
    [parse_events content] are what etree.parse and etree.iterparse make of the source *)
Section Init.
Variable parse_tree : bool -> str -> res xml.
Variable parse_events : str -> res (list event).
(** the handler counts before the path; [truncated] is the property of 185-188 *)
Record xobject := XObject { x_truncated : bool; x_parsed : parsed }.
Definition xml_init (path handler : option xsource) (k_before_band extract_all event : bool) : res xobject :=
  let* s := of_option (SysExit 510) (match handler with Some h => Some h | None => path end) in
  let* truncated := xml_truncated s in
  let* p := match choose (N.of_nat (length (content s))) truncated event with
            | Regular recover => let* x := parse_tree recover (content s) in parsew x k_before_band extract_all
            | Events => let* evs := parse_events (content s) in parsee k_before_band evs
            end in
  Ok (XObject truncated p).
End Init.
