(** The documents for which the two parsers of vasprun.xml are compared: the output of a run of
    VASP with ionic steps, eigenvalues, density of states and projectors. *)
From Coq Require Import Ascii String List NArith ZArith Bool Lia.
From Verif Require Import PyBase PyNum VasprunTypes VasprunXml VasprunSpec.
Import ListNotations.
Local Open Scope string_scope.
Local Open Scope list_scope.

(** ** Elements *)
Definition within (e : xml) : list xml := e :: descendants e.
(** an element <tg>...</tg> without attributes *)
Definition plain (tg : string) (ks : list xml) (e : xml) : Prop := exists x, e = Elem tg [] x ks.
(** a row <r> or <v> or <c>: no attributes, no children, any text *)
Definition is_row (tg : string) (e : xml) : Prop := exists t, e = Elem tg [] t [].
Definition is_varray (n : string) (rows : list xml) (e : xml) : Prop := (exists x, e = Elem "varray" [("name", n)] x rows) /\ Forall (is_row "v") rows.
(** <set comment="..."> *)
Definition is_set (c : string) (ks : list xml) (e : xml) : Prop := exists x, e = Elem "set" [("comment", c)] x ks.
(** a set with another comment (or none) *)
Definition inner_set (avoid : list string) (ks : list xml) (e : xml) : Prop :=
  exists a x, e = Elem "set" a x ks /\ forall c, In c avoid -> assoc "comment" a <> Some c.
(** the <dimension> and <field> elements at the beginning of an array *)
Definition is_heading (e : xml) : Prop := exists a t, e = Elem "dimension" a t [] \/ e = Elem "field" a t [].
Definition is_array (body : xml) (e : xml) : Prop := exists heads, Forall is_heading heads /\ plain "array" (heads ++ [body]) e.
(** one or two spins *)
Inductive per_spin (n1 n2 : string) : list xml -> list xml -> list xml -> Prop :=
| one_spin ks e : is_set n1 ks e -> per_spin n1 n2 ks [] [e]
| two_spins ks ls e f : is_set n1 ks e -> is_set n2 ls f -> ls <> [] -> per_spin n1 n2 ks ls [e; f].

(** ** Header *)
(** the version *)
Definition is_generator (e : xml) : Prop :=
  exists ks, plain "generator" ks e /\ Forall (fun k => exists a t, k = Elem "i" a t []) ks /\ length (filter (fun k => opt_is "version" (attr k "name")) ks) <= 1.
(** the parameters: separators, i and v elements; each of the nine names at most once, in its
    place; elements with the attributes of their parents *)
Fixpoint visits (parent : list (string * string)) (e : xml) : list (list (string * string) * xml) :=
  match e with Elem t a x ks => (parent, e) :: flat_map (visits a) ks end.
Definition sep_ (n : string) : pstep := TagAt "separator" "name" n.
Definition i_ (n : string) : pstep := TagAt "i" "name" n.
Definition parameter_paths : list (string * list pstep) :=
  [("SYMPREC", [sep_ "symmetry"; i_ "SYMPREC"]); ("ISPIN", [sep_ "electronic"; sep_ "electronic spin"; i_ "ISPIN"]);
   ("ISMEAR", [sep_ "electronic"; sep_ "electronic smearing"; i_ "ISMEAR"]); ("SIGMA", [sep_ "electronic"; sep_ "electronic smearing"; i_ "SIGMA"]);
   ("NBANDS", [sep_ "electronic"; i_ "NBANDS"]); ("NELECT", [sep_ "electronic"; i_ "NELECT"]); ("SYSTEM", [sep_ "general"; i_ "SYSTEM"]);
   ("NELM", [sep_ "electronic"; sep_ "electronic convergence"; i_ "NELM"]); ("NSW", [sep_ "ionic"; i_ "NSW"])].
Definition is_parameters (e : xml) : Prop :=
  (exists ks, plain "parameters" ks e) /\ (forall d, In d (descendants e) -> In (tag d) ["separator"; "i"; "v"]) /\
  (forall n path, In (n, path) parameter_paths -> findall_child path e = filter (fun d => opt_is n (attr d "name")) (descendants e) /\ length (findall_child path e) <= 1) /\
  (forall a d, In (a, d) (flat_map (visits []) (kids e)) -> attr d "name" = Some "NELM" -> assoc "name" a = Some "electronic convergence").
(** the k-points *)
Definition is_generation (e : xml) : Prop :=
  exists a x ks, e = Elem "generation" a x ks /\ Forall (fun k => exists b t, k = Elem "i" b t [] \/ k = Elem "v" b t []) ks /\
    length (filter (matches (TagAt "v" "name" "divisions")) ks) <= 1.
Definition other_k (d : xml) : Prop :=
  In (tag d) ["i"; "v"; "varray"] /\ ~ In (attr d "name") [Some "divisions"; Some "kpointlist"; Some "weights"].
Definition is_kpoints (e : xml) : Prop :=
  exists gen kl kw rest r1 r2, plain "kpoints" (gen ++ [kl; kw] ++ rest) e /\ (gen = [] \/ exists g, gen = [g] /\ is_generation g) /\
    is_varray "kpointlist" r1 kl /\ is_varray "weights" r2 kw /\ r1 <> [] /\ r2 <> [] /\ forall k d, In k rest -> In d (within k) -> other_k d.
(** the atoms *)
Definition other_top (d : xml) : Prop :=
  ~ In (tag d) ["generator"; "parameters"; "calculation"; "kpoints"; "projected"; "atominfo"] /\ ~ (tag d = "array" /\ attr d "name" = Some "atoms").
Definition is_atominfo (e : xml) : Prop :=
  exists before after arr heads st rcs cs x, plain "atominfo" (before ++ [arr] ++ after) e /\ (forall k d, In k (before ++ after) -> In d (within k) -> other_top d) /\
    arr = Elem "array" [("name", "atoms")] x (heads ++ [st]) /\ Forall is_heading heads /\ plain "set" rcs st /\ Forall2 (fun rc c => plain "rc" c rc /\ Forall (is_row "c") c) rcs cs /\ concat cs <> [].

(** ** One ionic step *)
(** elements that are not read *)
Definition other_calc (d : xml) : Prop :=
  ~ In (tag d) ["generator"; "parameters"; "calculation"; "atominfo"; "projected"; "dos"; "structure"; "scstep"; "energy"; "eigenvalues"; "eigenvelocities"; "dielectricfunction"; "dynmat"] /\
  ~ (tag d = "array" /\ (attr d "name" = Some "atoms" \/ attr d "name" = Some "born_charges")) /\
  (tag d = "varray" -> exists n, attr d "name" = Some n /\ n <> "forces" /\ n <> "stress").
(** an electronic step: energies in named i elements *)
Definition is_scstep (e : xml) : Prop :=
  (exists ks, plain "scstep" ks e) /\ (forall d, In d (descendants e) -> In (tag d) ["energy"; "i"; "time"] /\ (tag d = "i" -> attr d "name" <> None /\ kids d = [])) /\
  forall n, In n ["e_0_energy"; "e_fr_energy"; "e_wo_entrp"] -> findall_child [Tag "energy"; TagAt "i" "name" n] e = filter (matches (TagAt "i" "name" n)) (descendants e).
Definition other_structure (d : xml) : Prop :=
  tag d = "i" \/ tag d = "v" \/ tag d = "varray" /\ exists n, attr d "name" = Some n /\ ~ In n ["basis"; "positions"; "forces"; "stress"].
Definition is_structure (e : xml) : Prop :=
  exists crystal basis positions q1 q2 r1 r2, plain "structure" ([crystal; positions] ++ q2) e /\ plain "crystal" (basis :: q1) crystal /\ is_varray "basis" r1 basis /\ is_varray "positions" r2 positions /\
    forall k d, In k (q1 ++ q2) -> In d (within k) -> other_structure d.
(** the final energies: named i elements, each of the three once *)
Definition is_energy (e : xml) : Prop :=
  exists ks, plain "energy" ks e /\ Forall (fun k => exists a t, k = Elem "i" a t [] /\ assoc "name" a <> None) ks /\
    forall n, In n ["e_0_energy"; "e_fr_energy"; "e_wo_entrp"] -> length (filter (matches (TagAt "i" "name" n)) ks) = 1.
(** eigenvalues: sets of rows for each k-point and spin *)
Definition is_kset (rows : list xml) (e : xml) : Prop := inner_set ["spin 1"; "spin 2"] rows e /\ Forall (is_row "r") rows.
Definition is_eigenvalues (rows1 rows2 : list xml) (e : xml) : Prop :=
  exists arr st spins k1 k2 r1 r2, plain "eigenvalues" [arr] e /\ is_array st arr /\ plain "set" spins st /\ per_spin "spin 1" "spin 2" k1 k2 spins /\
    Forall2 is_kset r1 k1 /\ Forall2 is_kset r2 k2 /\ concat r1 = rows1 /\ concat r2 = rows2 /\ rows1 <> [].
(** projectors: sets of rows for each band, k-point and spin, after a copy of the eigenvalues *)
Definition is_bset (rows : list xml) (e : xml) : Prop := inner_set ["spin1"; "spin2"] rows e /\ Forall (is_row "r") rows.
Definition is_kbset (rows : list xml) (e : xml) : Prop := exists bs rs, inner_set ["spin1"; "spin2"] bs e /\ Forall2 is_bset rs bs /\ concat rs = rows.
Definition is_projected (eig : xml) (rows1 rows2 : list xml) (e : xml) : Prop :=
  exists arr st spins k1 k2 r1 r2, plain "projected" [eig; arr] e /\ is_array st arr /\ plain "set" spins st /\ per_spin "spin1" "spin2" k1 k2 spins /\
    Forall2 is_kbset r1 k1 /\ Forall2 is_kbset r2 k2 /\ concat r1 = rows1 /\ concat r2 = rows2 /\ rows1 <> [].
(** density of states: total, and perhaps partial with a set for each ion *)
Definition is_total (rows1 rows2 : list xml) (e : xml) : Prop :=
  exists arr st spins, plain "total" [arr] e /\ is_array st arr /\ plain "set" spins st /\ per_spin "spin 1" "spin 2" rows1 rows2 spins /\ Forall (is_row "r") (rows1 ++ rows2) /\ rows1 <> [].
Definition is_ion (rows : list xml * list xml) (e : xml) : Prop :=
  exists spins, inner_set ["spin 1"; "spin 2"] spins e /\ per_spin "spin 1" "spin 2" (fst rows) (snd rows) spins /\ Forall (is_row "r") (fst rows ++ snd rows).
Definition is_partial (rows1 rows2 : list xml) (e : xml) : Prop :=
  exists arr st ions rs, plain "partial" [arr] e /\ is_array st arr /\ plain "set" ions st /\ Forall2 is_ion rs ions /\ flat_map fst rs = rows1 /\ flat_map snd rs = rows2 /\ rows1 <> [].
Definition is_dos (e : xml) : Prop :=
  exists a t efermi total partial t1 t2 p1 p2, efermi = Elem "i" a t [] /\ assoc "name" a = Some "efermi" /\ is_total t1 t2 total /\ plain "dos" ([efermi; total] ++ partial) e /\
    (partial = [] \/ exists q, partial = [q] /\ is_partial p1 p2 q /\ (t2 = [] -> p2 = [])).
(** the dielectric function: its imaginary part and its real part on the same energies *)
Definition is_part (n : string) (rows : list xml) (e : xml) : Prop :=
  exists arr st, plain n [arr] e /\ is_array st arr /\ plain "set" rows st /\ Forall (is_row "r") rows.
Definition is_dielectric (im re : list xml) (e : xml) : Prop :=
  exists a x i r, e = Elem "dielectricfunction" a x [i; r] /\ is_part "imag" im i /\ is_part "real" re r /\ im <> [] /\ length re = length im.
(** Born charges: a set of rows for each ion *)
Definition is_born (rows : list xml) (e : xml) : Prop :=
  exists x heads sets rs, e = Elem "array" [("name", "born_charges")] x (heads ++ sets) /\ Forall is_heading heads /\
    Forall2 (fun r st => plain "set" r st /\ Forall (is_row "v") r) rs sets /\ concat rs = rows /\ rows <> [].
(** force constants, with the eigenvalues and eigenvectors of the dynamical matrix *)
Definition other_dynmat (d : xml) : Prop := other_calc d /\ ~ In (attr d "name") [Some "hessian"; Some "eigenvalues"; Some "eigenvectors"].
Definition quiet (P : xml -> Prop) (l : list xml) : Prop := forall k d, In k l -> In d (within k) -> P d.
Definition is_dynmat (hess : list xml) (t : option str) (vecs : list xml) (e : xml) : Prop :=
  exists h v q, plain "dynmat" ([h; Elem "v" [("name", "eigenvalues")] t []; v] ++ q) e /\ is_varray "hessian" hess h /\ is_varray "eigenvectors" vecs v /\ hess <> [] /\ quiet other_dynmat q.
(** band velocities, with the k-points they are given at *)
Definition is_velocities (ks ws rows1 rows2 : list xml) (e : xml) : Prop :=
  exists a x k kl kw ev, e = Elem "eigenvelocities" a x [k; ev] /\ plain "kpoints" [kl; kw] k /\ is_varray "kpointlist" ks kl /\ is_varray "weights" ws kw /\ ks <> [] /\ ws <> [] /\ is_eigenvalues rows1 rows2 ev.
(** The children of a calculation, in any order.  [eigs]: the eigenvalues elements of the document *)
Inductive calc_child (eigs : list xml) : xml -> Prop :=
| child_scstep e : is_scstep e -> calc_child eigs e
| child_structure e : is_structure e -> calc_child eigs e
| child_forces rows e : is_varray "forces" rows e -> calc_child eigs e
| child_stress rows e : is_varray "stress" rows e -> calc_child eigs e
| child_energy e : is_energy e -> calc_child eigs e
| child_eigenvalues r1 r2 e : is_eigenvalues r1 r2 e -> calc_child eigs e
| child_dos e : is_dos e -> calc_child eigs e
| child_projected r1 r2 f e : eigs = [f] -> is_projected f r1 r2 e -> calc_child eigs e
| child_dielectric im re e : is_dielectric im re e -> calc_child eigs e
| child_born rows e : is_born rows e -> calc_child eigs e
| child_dynmat hess t vecs e : is_dynmat hess t vecs e -> calc_child eigs e
| child_velocities ks ws r1 r2 e : is_velocities ks ws r1 r2 e -> calc_child eigs e
| child_other e : quiet other_calc [e] -> calc_child eigs e.
Definition varray_ (n : string) : pstep := TagAt "varray" "name" n.
Definition once_each_step : list pstep := [Tag "structure"; varray_ "forces"; varray_ "stress"; Tag "energy"].
Definition once_in_all : list pstep := [Tag "eigenvalues"; Tag "dos"; Tag "projected"; Tag "dielectricfunction"; Tag "dynmat"; TagAt "array" "name" "born_charges"; Tag "eigenvelocities"].
Definition is_calculation (eigs : list xml) (c : xml) : Prop :=
  exists ks, plain "calculation" ks c /\ Forall (calc_child eigs) ks /\ (forall s, In s once_each_step -> length (filter (matches s) ks) = 1) /\
    forall k d, In k ks -> In d (descendants k) -> tag d <> "scstep".
(** ** The document *)
(** header and ionic steps; a step has its structure, forces, stress and energy once, and the
    document at most one each of eigenvalues, density of states, projectors, dielectric
    function, force constants, Born charges and band velocities, in any of the steps *)
Definition is_run (x : xml) (calcs : list xml) : Prop :=
  exists ge kp pa ai q1 q2 q3 q4 q5 q6,
    plain "modeling" (q1 ++ [ge] ++ q2 ++ [kp] ++ q3 ++ [pa] ++ q4 ++ [ai] ++ q5 ++ calcs ++ q6) x /\
    is_generator ge /\ is_kpoints kp /\ is_parameters pa /\ is_atominfo ai /\ quiet other_top (q1 ++ q2 ++ q3 ++ q4 ++ q5 ++ q6) /\
    calcs <> [] /\ Forall (is_calculation (filter (matches (Tag "eigenvalues")) (flat_map kids calcs))) calcs /\
    (forall s, In s once_in_all -> length (filter (matches s) (flat_map kids calcs)) <= 1) /\
    forall k d, In k (kids x) -> In d (descendants k) -> ~ In (tag d) ["generator"; "parameters"; "atominfo"; "calculation"].
