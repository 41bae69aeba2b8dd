(** Model of parsevasp/vasprun.py: conversions, tables, the regular (tree) parser, the
    accessors, and the choice of the method.  The event parser is in VasprunEvents.v.
    lxml is not modelled: a document is its tree of elements; loggers are not modelled. *)
From Coq Require Import Ascii String List NArith ZArith Bool Lia.
From Verif Require Import PyBase PyNum UtilsModel LineModel OutcarModel ChgcarModel VasprunTypes VasprunXml.
Import ListNotations.
Local Open Scope list_scope.
Local Open Scope bool_scope.

(** ** Paths *)
(** vasprun.py:3581-3603 _findall, 3557-3579 _find *)
Definition some_list {A} (l : list A) : option (list A) := match l with [] => None | _ => Some l end.
Definition findall (path : list pstep) (e : xml) : option (list xml) := some_list (findall_deep path e).
Definition find (path : list pstep) (e : xml) : option xml := hd_error (findall_deep path e).
Definition opt_map_res {A B} (f : A -> res B) (o : option A) : res (option B) :=
  match o with None => Ok None | Some a => let* b := f a in Ok (Some b) end.

(** ** Conversions *)
(** np.fromstring(text, sep=' '): see ChgcarModel.fromstring; None is a TypeError *)
Definition numbers (t : option str) : res (list float) :=
  match t with None => Exn TypeError | Some s => fromstring (cell64 (fun _ _ _ => FNan)) s end.
(** np.fromstring(text, sep=' ', dtype='intc') for texts of integers that fit; others are
    outside the model *)
Definition small_int (t : str) : res Z :=
  match parse_int t with
  | Some z => if negb (existsb (aeqb "_") t) && (Z.abs z <? 2147483648)%Z then Ok z else Exn OutOfModel
  | None => Exn OutOfModel
  end.
(** 2629-2656 _convert_array_i *)
Definition convert_array_i (t : option str) : res (list Z) :=
  match t with None => Exn TypeError | Some s => if existsb odd_char s then Exn OutOfModel else mapM small_int (split_ws s) end.
(** 2658-2685 _convert_array_f *)
Definition convert_array_f (t : option str) : res row := numbers t.
(** 2718-2748 _convert_array1D_f: an array of one number is the number; of another length, the
    ValueError 'setting an array element with a sequence.' *)
Definition convert1D (es : list xml) : res row :=
  mapM (fun e => let* xs := numbers (text e) in match xs with [x] => Ok x | _ => Exn (SysExit 509) end) es.
(** 2750-2783 _convert_array2D_f: a row of zeros is overwritten by an array of the same
    length, or by one number in all columns; for other lengths the ValueError 'could not
    broadcast ...' is caught and ignored, and the zeros stay *)
Definition fzero : float := FFin false 0 0.
Definition fit_row (dim : nat) (xs : row) : row :=
  if Nat.eqb (length xs) dim then xs else match xs with [x] => repeat x dim | _ => repeat fzero dim end.
Definition convert2D (dim : nat) (es : list xml) : res matrix :=
  mapM (fun e => let* xs := numbers (text e) in Ok (fit_row dim xs)) es.
(** 2785-2833 _convert_f, _convert_i *)
Definition stars : str := lit "****".
Definition convert_f (t : option str) : res (option float) :=
  match t with
  | None => Ok None
  | Some s => if substrb stars s then Exn (SysExit 509) else let* x := OutcarModel.to_float s in Ok (Some x)
  end.
Definition convert_i (t : option str) : res (option Z) :=
  match t with
  | None => Ok None
  | Some s => if substrb stars s then Exn (SysExit 509) else let* x := OutcarModel.to_int s in Ok (Some x)
  end.
(** 2835-2864 _convert_species *)
Definition convert_species (es : list xml) : res (list Z) :=
  mapM (fun e => match text e with
                 | None => Exn AttributeError
                 | Some s => match split_ws s with
                             | [] => Exn IndexError
                             | w :: _ => of_option (SysExit 506) (assoc (string_of_list_ascii (lower w)) elements)
                             end
                 end) es.
(** entry[::2] *)
Fixpoint every_other {A} (l : list A) : list A :=
  match l with [] => [] | [a] => [a] | a :: _ :: r => a :: every_other r end.

(** ** numpy arrays as nested lists *)
Fixpoint keep_some {A} (l : list (option A)) : list A :=
  match l with [] => [] | Some a :: r => a :: keep_some r | None :: r => keep_some r end.
(** the j-th column a[:, j] *)
Definition column {A} (j : nat) (m : list (list A)) : list A := keep_some (map (fun r => nth_error r j) m).
(** np.swapaxes(a, 0, 1); an array without rows has no columns here *)
Definition swap01 {A} (m : list (list A)) : list (list A) :=
  match m with [] => [] | r :: _ => map (fun j => column j m) (seq 0 (length r)) end.
(** np.split(a, n): n parts of the same length *)
Definition split_even {A} (n : nat) (l : list A) : res (list (list A)) :=
  match n with
  | O => Exn ZeroDivision
  | _ => if Nat.eqb (Nat.modulo (length l) n) 0 then Ok (chunks n (Nat.div (length l) n) l) else Exn ValueError
  end.
(** np.asarray(np.split(a, n, axis=1)) *)
Definition split_axis1 {A} (n : nat) (m : list (list A)) : res (list (list (list A))) :=
  let* rows := mapM (split_even n) m in Ok (swap01 rows).

(** ** Extraction of tables *)
(** len(entries) != nbands * num_kpoints *)
Definition wrong_count (n : nat) (nbands : Z) (k : nat) : bool := negb (Z.of_nat n =? nbands * Z.of_nat k)%Z.
(** 2437-2450: one spin of the eigenvalues as [kpoint][band][column]; with one column the
    array has no third axis, here it is of length one *)
Definition eigen_table (entries num_kpoints : nat) (es : list xml) : res (list matrix) :=
  let* rows := if Nat.ltb 1 entries then convert2D entries es else let* xs := convert1D es in Ok (map (fun x => [x]) xs) in
  split_even num_kpoints rows.
(** 2381-2469 _extract_eigenvalues *)
Definition extract_eigenvalues (k_before_band : bool) (ispin nbands : option Z) (spin1 : list xml) (spin2 : option (list xml)) (num_kpoints : nat)
  : res (spins matrix * option (spins matrix)) :=
  match ispin with None => Exn (SysExit 502) | Some _ =>
  match nbands with None => Exn (SysExit 503) | Some nb =>
  if wrong_count (length spin1) nb num_kpoints then Exn (SysExit 505) else
  let* e0 := py_nth spin1 0 in
  let* t0 := of_option AttributeError (text e0) in
  let entries := length (split_ws t0) in
  let* a := eigen_table entries num_kpoints spin1 in
  let axes m := if k_before_band then m else swap01 m in
  let col j (m : list matrix) : matrix := map (column j) (axes m) in
  match spin2 with
  | None => Ok (Total (col 0 a), if Nat.ltb 1 entries then Some (Total (col 1 a)) else None)
  | Some s2 =>
      if wrong_count (length s2) nb num_kpoints then Exn (SysExit 505) else
      let* b := eigen_table entries num_kpoints s2 in
      Ok (UpDown (col 0 a) (col 0 b), if Nat.ltb 1 entries then Some (UpDown (col 1 a) (col 1 b)) else None)
  end end end.
(** 2471-2538 _extract_eigenvelocities *)
Definition extract_eigenvelocities (k_before_band : bool) (ispin nbands : option Z) (spin1 : list xml) (spin2 : option (list xml)) (num_kpoints : nat)
  : res (spins (list matrix)) :=
  match ispin with None => Exn (SysExit 502) | Some _ =>
  match nbands with None => Exn (SysExit 503) | Some nb =>
  let table es := if wrong_count (length es) nb num_kpoints then Exn (SysExit 505) else
                  let* rows := convert2D 4 es in split_even num_kpoints rows in
  let axes m := if k_before_band then m else swap01 m in
  let* a := table spin1 in
  match spin2 with
  | None => Ok (Total (axes a))
  | Some s2 => let* b := table s2 in Ok (UpDown (axes a) (axes b))
  end end end.
(** 2540-2627 _extract_projectors; np.swapaxes of the axes spin, band, kpoint, ion *)
Definition swap12 {A} (m : list (list (list A))) : list (list (list A)) := map swap01 m.
Definition swap23 {A} (m : list (list (list (list A)))) : list (list (list (list A))) := map swap12 m.
Definition swap03 {A} (m : list (list (list (list A)))) : list (list (list (list A))) := swap01 (swap12 (swap23 (swap12 (swap01 m)))).
Definition swap13 {A} (m : list (list (list (list A)))) : list (list (list (list A))) := swap12 (swap23 (swap12 m)).
Definition extract_projectors (k_before_band : bool) (kpoints : option matrix) (ispin nbands : option Z) (species : option (list Z)) (spin1 : list xml) (spin2 : option (list xml))
  : res (spins (list (list matrix))) :=
  match kpoints with None => Exn (SysExit 504) | Some kp =>
  match ispin with None => Exn (SysExit 502) | Some _ =>
  match nbands with None => Exn (SysExit 503) | Some nb =>
  match species with None => Exn (SysExit 503) | Some sp =>
  let num_atoms := length sp in
  let num_kpoints := length kp in
  let table es := if negb (Z.of_nat (length es) =? nb * Z.of_nat num_kpoints * Z.of_nat num_atoms)%Z then Exn (SysExit 505) else
                  let* rows := convert2D 9 es in
                  let* per_k := split_even num_kpoints rows in
                  split_axis1 (Z.to_nat nb) per_k in
  let* a := table spin1 in
  let* pdata := match spin2 with None => Ok [a] | Some s2 => let* b := table s2 in Ok [a; b] end in
  let pdata := swap13 (swap03 pdata) in
  let pdata := if k_before_band then pdata else swap23 pdata in
  match spin2 with
  | None => Ok (Total (column 0 pdata))
  | Some _ => Ok (UpDown (column 0 pdata) (column 1 pdata))
  end end end end end.
(** a[:, 1:n] *)
Definition columns_from1 (m : matrix) : matrix := map (@tl float) m.
(** np.asarray(np.split(dos_ispin[:, 1:10], num_atoms)) *)
Definition partial_dos (num_atoms : nat) (es : list xml) : res (list matrix) :=
  let* m := convert2D 10 es in split_even num_atoms (columns_from1 m).
(** truth value of an entry list that may be None *)
Definition entries_of (o : option (list xml)) : option (list xml) := match o with Some (e :: r) => Some (e :: r) | _ => None end.
(** 2121-2199 _extract_dos *)
Definition extract_dos (total1 total2 partial1 partial2 : option (list xml)) (fermi : option float) (num_atoms : nat) : res ddict :=
  let* t1 := of_option TypeError total1 in
  let* a := convert2D 3 t1 in
  let* pa := opt_map_res (partial_dos num_atoms) (entries_of partial1) in
  match entries_of total2 with
  | Some t2 =>
      let* b := convert2D 3 t2 in
      let* pb := opt_map_res (partial_dos num_atoms) (entries_of partial2) in
      Ok (DDict (Some (DPart None (Some (column 1 a)) (Some (column 2 a)) (Some pa) None))
                (Some (DPart None (Some (column 1 b)) (Some (column 2 b)) (Some pb) None))
                (Some (DPart (Some (column 0 a)) None None None (Some fermi))))
  | None => Ok (DDict None None (Some (DPart (Some (column 0 a)) (Some (column 1 a)) (Some (column 2 a)) (Some pa) (Some fermi))))
  end.

(** ** The regular parser: 1095-2379 _fetch_...w.  [x]: the root element *)
Section Regular.
Variable x : xml.
Definition param (path : list pstep) : option (option str) := option_map text (find (Tag "parameters" :: path) x).
Definition param_f (path : list pstep) : res (option float) := match param path with None => Ok None | Some t => convert_f t end.
Definition param_i (path : list pstep) : res (option Z) := match param path with None => Ok None | Some t => convert_i t end.
Definition sep (n : string) : pstep := TagAt "separator" "name" n.
Definition item (n : string) : pstep := TagAt "i" "name" n.
Definition vrr (n : string) : pstep := TagAt "varray" "name" n.
Definition join_opt {A} (o : option (option A)) : option A := match o with Some a => a | None => None end.
Definition fetch_version : option str := join_opt (option_map text (find [Tag "generator"; item "version"] x)).      (* 1095-1122 *)
Definition fetch_symprec := param_f [sep "symmetry"; item "SYMPREC"].                                                (* 1124-1152 *)
Definition fetch_sigma := param_f [sep "electronic"; sep "electronic smearing"; item "SIGMA"].                       (* 1154-1185 *)
Definition fetch_nelm := param_i [sep "electronic"; sep "electronic convergence"; item "NELM"].                      (* 1187-1219 *)
Definition fetch_nsw := param_i [sep "ionic"; item "NSW"].                                                           (* 1221-1249 *)
Definition fetch_ispin := param_i [sep "electronic"; sep "electronic spin"; item "ISPIN"].                           (* 1251-1281 *)
Definition fetch_ismear := param_i [sep "electronic"; sep "electronic smearing"; item "ISMEAR"].                     (* 1283-1314 *)
Definition fetch_nbands := param_i [sep "electronic"; item "NBANDS"].                                                (* 1316-1343 *)
Definition fetch_nelect := param_f [sep "electronic"; item "NELECT"].                                                (* 1345-1373 *)
Definition fetch_system : option str := join_opt (param [sep "general"; item "SYSTEM"]).                             (* 1375-1403 *)
(** 1615-1640 *)
Definition fetch_species : res (option (list Z)) :=
  opt_map_res (fun es => convert_species (every_other es)) (findall [Tag "atominfo"; TagAt "array" "name" "atoms"; Tag "set"; Tag "rc"; Tag "c"] x).
(** 1405-1442; [species]: _lattice['species'] *)
Definition fetch_born (species : option (list Z)) : res born :=
  match findall [Tag "calculation"; TagAt "array" "name" "born_charges"; Tag "set"; Tag "v"] x with
  | None => Ok BornNone
  | Some es => match species with
               | None => Ok BornNones
               | Some sp => let* m := convert2D 3 es in let* b := split_even (length sp) m in Ok (BornArray b)
               end
  end.
(** 1444-1613 _fetch_upfsw *)
(** entry[-n:] *)
Definition lastn {A} (n : nat) (l : list A) : list A := match n with O => l | _ => skipn (length l - n) l end.
Definition slice {A} (a n : nat) (l : list A) : list A := firstn n (skipn a l).
Definition ndset {A} (k : nat) (v : A) (d : ndict A) : ndict A :=
  if existsb (fun p => Nat.eqb (fst p) k) d then map (fun p => if Nat.eqb (fst p) k then (k, v) else p) d else d ++ [(k, v)].
Fixpoint ndget {A} (k : nat) (d : ndict A) : option A :=
  match d with [] => None | (k', v) :: r => if Nat.eqb k' k then Some v else ndget k r end.
Definition upfs := (ndict (option matrix) * ndict (option matrix) * ndict (option matrix) * ndict (option matrix))%type.
(** 1533-1572: the first [n] rows, and the last [n] ones if there are more than three *)
Definition first_last (n : nat) (entry : option (list xml)) : res (ndict (option matrix)) :=
  match entry with
  | None => Ok [(1, None); (2, None)]
  | Some es =>
      let* a := convert2D 3 (firstn n es) in
      let* b := if Nat.ltb 3 (length es) then opt_map_res (convert2D 3) (Some (lastn n es)) else Ok None in
      Ok [(1, Some a); (2, b)]
  end.
(** 1579-1589: the rows of one calculation *)
Definition set_step (calc n : nat) (entry : option (list xml)) (d : ndict (option matrix)) : res (ndict (option matrix)) :=
  match entry with
  | None => Ok d
  | Some es => let* m := convert2D 3 (slice (calc * n) n es) in Ok (ndset (S calc) (Some m) d)
  end.
(** 1594-1605: 'number two' is number one if there is only one *)
Definition same_last (d : ndict (option matrix)) : ndict (option matrix) :=
  match ndget 2 d with
  | Some (Some _) => d
  | _ => match ndget 1 d with Some v => ndset 2 v d | None => d end
  end.
Definition count (entry : option (list xml)) : nat := match entry with Some es => length es | None => 0 end.
Definition fetch_upfs (species : option (list Z)) (extract_all : bool) : res (option upfs) :=
  match species with None => Ok None | Some sp =>
  let num_atoms := length sp in
  let basis (pre : list pstep) := opt_map_res (convert2D 3) (findall (pre ++ [Tag "crystal"; vrr "basis"; Tag "v"]) x) in
  let positions (pre : list pstep) := opt_map_res (convert2D 3) (findall (pre ++ [vrr "positions"; Tag "v"]) x) in
  let in_calc (n : string) := findall [Tag "calculation"; vrr n; Tag "v"] x in
  if negb extract_all then
    let structure (n : string) := [TagAt "structure" "name" n] in
    let* c2 := basis (structure "finalpos"%string) in let* c1 := basis (structure "initialpos"%string) in
    let* p2 := positions (structure "finalpos"%string) in let* p1 := positions (structure "initialpos"%string) in
    let both (n : nat) (entry : option (list xml)) : res (ndict (option matrix)) := match entry with
      | None => Ok [(1, None); (2, None)]
      | Some es => let* a := convert2D 3 (firstn n es) in let* b := convert2D 3 (lastn n es) in Ok [(1, Some a); (2, Some b)]
      end in
    let* stress := both 3 (in_calc "stress"%string) in
    let* force := both num_atoms (in_calc "forces"%string) in
    Ok (Some (same_last [(2, c2); (1, c1)], same_last [(2, p2); (1, p1)], same_last force, same_last stress))
  else
    match findall [Tag "calculation"; Tag "structure"] x with
    | None => Ok None
    | Some structures =>
        let entrycell := findall [Tag "calculation"; Tag "structure"; Tag "crystal"; vrr "basis"; Tag "v"] x in
        let entrypos := findall [Tag "calculation"; Tag "structure"; vrr "positions"; Tag "v"] x in
        let entryforce := in_calc "forces"%string in
        let entrystress := in_calc "stress"%string in
        let* cell := first_last 3 entrycell in
        let* pos := first_last num_atoms entrypos in
        let* force := first_last num_atoms entryforce in
        let* stress := first_last 3 entrystress in
        let max_entries := Nat.max (count entrystress) (Nat.max (count entryforce) (Nat.max (count entrycell) (count entrypos))) in
        let* (cell, pos, force, stress) :=
          if Nat.ltb 6 max_entries then
            foldM (fun (d : upfs) calc =>
                     let '(c, p, f, s) := d in
                     let* c := set_step calc 3 entrycell c in let* p := set_step calc num_atoms entrypos p in
                     let* f := set_step calc num_atoms entryforce f in let* s := set_step calc 3 entrystress s in Ok (c, p, f, s))
                  (seq 1 (length structures - 1)) (cell, pos, force, stress)
          else Ok (cell, pos, force, stress) in
        Ok (Some (same_last cell, same_last pos, same_last force, same_last stress))
    end
  end.
(** 1642-1675, 1677-1720 *)
Definition fetch_hessian (species : option (list Z)) : res (option matrix) :=
  match findall [Tag "calculation"; Tag "dynmat"; vrr "hessian"; Tag "v"] x, species with
  | Some es, Some sp => let* m := convert2D (length sp * 3) es in Ok (Some m)
  | _, _ => Ok None
  end.
Definition fetch_dynmat (species : option (list Z)) : res (option dynm) :=
  match find [Tag "calculation"; Tag "dynmat"; TagAt "v" "name" "eigenvalues"] x, species with
  | Some e, Some sp =>
      let* values := convert_array_f (text e) in
      match find [Tag "calculation"; Tag "dynmat"; vrr "eigenvectors"] x with
      | None => Ok None
      | Some v => let* m := convert2D (length sp * 3) (kids v) in Ok (Some (Dynm (Some values) (Some m)))
      end
  | _, _ => Ok None
  end.
(** 1722-1801: these paths begin at the root *)
Definition fetch_kpoints : res (option matrix) := opt_map_res (convert2D 3) (some_list (findall_child [Tag "kpoints"; vrr "kpointlist"; Tag "v"] x)).
Definition fetch_kpointsw : res (option row) := opt_map_res convert1D (some_list (findall_child [Tag "kpoints"; vrr "weights"; Tag "v"] x)).
Definition fetch_kdiv : res (option (list Z)) :=
  opt_map_res (fun e => convert_array_i (text e)) (hd_error (findall_child [Tag "kpoints"; Tag "generation"; TagAt "v" "name" "divisions"] x)).
(** len(None) *)
Definition olen {A} (o : option (list A)) : res nat := match o with None => Exn TypeError | Some l => Ok (length l) end.
Definition spin_set (n : string) : pstep := TagAt "set" "comment" n.
Definition spin_rows (path : list pstep) (n : string) : option (list xml) :=
  findall (Tag "calculation" :: path ++ [Tag "array"; Tag "set"; spin_set n; Tag "set"; Tag "r"]) x.
(** 1803-1835 *)
Definition fetch_eigenvalues (k_before_band : bool) (ispin nbands : option Z) (kpoints : option matrix) : res (option (spins matrix) * option (spins matrix)) :=
  match spin_rows [Tag "eigenvalues"] "spin 1" with
  | None => Ok (None, None)
  | Some s1 => let* n := olen kpoints in
               let* (e, o) := extract_eigenvalues k_before_band ispin nbands s1 (spin_rows [Tag "eigenvalues"] "spin 2") n in Ok (Some e, o)
  end.
(** the k-points of 1866-1874 and 1917-1925 *)
Definition specific_kpoints (t : string) : res (option matrix) := opt_map_res (convert2D 3) (findall [Tag "calculation"; Tag t; Tag "kpoints"; vrr "kpointlist"; Tag "v"] x).
Definition specific_kpointsw (t : string) : res (option row) := opt_map_res convert1D (findall [Tag "calculation"; Tag t; Tag "kpoints"; vrr "weights"; Tag "v"] x).
(** 1837-1885: eigenvalues, k-points and weights *)
Definition fetch_eigenvalues_specific (k_before_band : bool) (ispin nbands : option Z) : res (option (spins matrix * option matrix * option row)) :=
  match spin_rows [Tag "eigenvalues"; Tag "eigenvalues"] "spin 1" with
  | None => Ok None
  | Some s1 => let* kp := specific_kpoints "eigenvalues" in let* w := specific_kpointsw "eigenvalues" in
               let* n := olen kp in
               let* (e, _) := extract_eigenvalues k_before_band ispin nbands s1 (spin_rows [Tag "eigenvalues"; Tag "eigenvalues"] "spin 2") n in Ok (Some (e, kp, w))
  end.
(** 1887-1938 *)
Definition fetch_eigenvelocities (k_before_band : bool) (ispin nbands : option Z) : res (option (spins (list matrix) * option matrix * option row)) :=
  match spin_rows [Tag "eigenvelocities"; Tag "eigenvalues"] "spin 1" with
  | None => Ok None
  | Some s1 => let* kp := specific_kpoints "eigenvelocities" in let* w := specific_kpointsw "eigenvelocities" in
               let* n := olen kp in
               let* v := extract_eigenvelocities k_before_band ispin nbands s1 (spin_rows [Tag "eigenvelocities"; Tag "eigenvalues"] "spin 2") n in Ok (Some (v, kp, w))
  end.
(** 1940-1970 *)
Definition projector_rows (n : string) : option (list xml) :=
  findall [Tag "calculation"; Tag "projected"; Tag "array"; Tag "set"; spin_set n; Tag "set"; Tag "set"; Tag "r"] x.
Definition fetch_projectors (k_before_band : bool) (kpoints : option matrix) (ispin nbands : option Z) (species : option (list Z)) : res (option (spins (list (list matrix)))) :=
  match projector_rows "spin1" with
  | None => Ok None
  | Some s1 => let* p := extract_projectors k_before_band kpoints ispin nbands species s1 (projector_rows "spin2") in Ok (Some p)
  end.
(** 1972-2025 _fetch_totensw: None as soon as a step lacks an entry *)
Definition step_energy (calc : xml) (key : string) : res (option (row * option float)) :=
  match findall [Tag "scstep"; Tag "energy"; item key] calc with
  | None => Ok None
  | Some es =>
      let* a := convert1D es in
      match findall_child [Tag "energy"; item key] calc with
      | [] => Ok None
      | e :: _ => let* f := convert_f (text e) in Ok (Some (a, f))
      end
  end.
Definition step_energies (calc : xml) : res (option tot) :=
  let* e0 := step_energy calc "e_0_energy" in match e0 with None => Ok None | Some (a0, f0) =>
  let* e1 := step_energy calc "e_fr_energy" in match e1 with None => Ok None | Some (a1, f1) =>
  let* e2 := step_energy calc "e_wo_entrp" in match e2 with None => Ok None | Some (a2, f2) =>
  Ok (Some (Tot (Some a0) (Some a1) (Some a2) (Some f0) (Some f1) (Some f2))) end end end.
Fixpoint energies_from (n : nat) (calcs : list xml) : res (option (ndict tot)) :=
  match calcs with
  | [] => Ok (Some [])
  | c :: r => let* o := step_energies c in match o with None => Ok None | Some t =>
              let* d := energies_from (S n) r in Ok (option_map (cons (n, t)) d) end
  end.
Definition fetch_totens : res (option (ndict tot)) :=
  match findall [Tag "calculation"] x with None => Ok None | Some calcs => energies_from 1 calcs end.
(** 2027-2119 _fetch_dosw; [d]: the step for the dos element *)
Definition dos_parts (d : pstep) (species : option (list Z)) : res (option ddict) :=
  let* fermi := match find [Tag "calculation"; d; item "efermi"] x with None => Ok None | Some e => convert_f (text e) end in
  let total (n : string) := findall [Tag "calculation"; d; Tag "total"; Tag "array"; Tag "set"; spin_set n; Tag "r"] x in
  let partial (n : string) := findall [Tag "calculation"; d; Tag "partial"; Tag "array"; Tag "set"; Tag "set"; spin_set n; Tag "r"] x in
  match total "spin 1"%string, species with
  | Some t1, Some sp => let* r := extract_dos (Some t1) (total "spin 2"%string) (partial "spin 1"%string) (partial "spin 2"%string) fermi (length sp) in Ok (Some r)
  | _, _ => Ok None
  end.
Definition fetch_dos (species : option (list Z)) : res (option ddict * option ddict) :=
  let* d := dos_parts (Tag "dos") species in
  match d with
  | None => Ok (None, None)
  | Some _ => let* i := dos_parts (TagAt "dos" "comment" "interpolated") species in Ok (d, i)
  end.
(** 2201-2379 _fetch_dielectricsw with its default arguments *)
Definition fetch_diel : res diel :=
  let rows (p : string) := findall [Tag "calculation"; Tag "dielectricfunction"; Tag p; Tag "array"; Tag "set"; Tag "r"] x in
  let tensor (n : string) := opt_map_res (convert2D 3) (findall [Tag "calculation"; vrr n; Tag "v"] x) in
  let* im := opt_map_res (convert2D 7) (rows "imag"%string) in
  let* re := opt_map_res (convert2D 7) (rows "real"%string) in
  let* ep := tensor "epsilon"%string in
  let* ei := tensor "epsilon_ion"%string in
  Ok (Diel (option_map (column 0) im) (option_map columns_from1 im) (option_map columns_from1 re) (Some ep) (Some ei)).
(** 207-260 _parsew *)
Definition parsew (k_before_band extract_all : bool) : res parsed :=
  let version := fetch_version in
  let* symprec := fetch_symprec in let* sigma := fetch_sigma in let* ismear := fetch_ismear in let* ispin := fetch_ispin in
  let* nbands := fetch_nbands in let* nelect := fetch_nelect in let system := fetch_system in let* nelm := fetch_nelm in let* nsw := fetch_nsw in
  let* species := fetch_species in
  let* u := fetch_upfs species extract_all in
  let* kpoints := fetch_kpoints in let* kpointsw := fetch_kpointsw in let* kdiv := fetch_kdiv in
  let* (eig, occ) := fetch_eigenvalues k_before_band ispin nbands kpoints in
  let* spec := fetch_eigenvalues_specific k_before_band ispin nbands in
  let* vel := fetch_eigenvelocities k_before_band ispin nbands in
  let* (dos, dosi) := fetch_dos species in
  let* totens := fetch_totens in
  let* diel := fetch_diel in
  let* proj := fetch_projectors k_before_band kpoints ispin nbands species in
  let* hess := fetch_hessian species in
  let* dyn := fetch_dynmat species in
  let* bo := fetch_born species in
  let kp := match vel, spec with Some (_, k, _), _ => k | None, Some (_, k, _) => k | None, None => None end in
  let kw := match vel, spec with Some (_, _, w), _ => w | None, Some (_, _, w) => w | None, None => None end in
  Ok (Parsed version symprec sigma ismear ispin nbands nelect system nelm nsw species
        (option_map (fun u : upfs => let '(c, _, _, _) := u in c) u) (option_map (fun u : upfs => let '(_, p, _, _) := u in p) u)
        (option_map (fun u : upfs => let '(_, _, f, _) := u in f) u) (option_map (fun u : upfs => let '(_, _, _, s) := u in s) u)
        kpoints kpointsw kdiv eig occ (option_map (fun s => fst (fst s)) spec) (option_map (fun s => fst (fst s)) vel) kp kw
        dos dosi totens (Some diel) proj hess dyn bo).
End Regular.

(** ** Accessors *)
(** 3546-3555 _check_calc_status *)
Definition check_status (status : str) : res unit :=
  if smem status [lit "initial"; lit "last"; lit "all"] then Ok tt else Exn (SysExit 507).
Definition max_key {A} (d : ndict A) : option nat :=
  match map fst d with [] => None | k :: r => Some (fold_right Nat.max k r) end.
(** what a per-step accessor returns: None, the entry of a step, or the dict *)
Inductive per_step (A : Type) := NoData | StepValue (a : A) | AllSteps (d : ndict A).
Arguments NoData {A}. Arguments StepValue {A}. Arguments AllSteps {A}.
(** 2866-2895 get_forces, 2897-2927 get_stress, 3038-3068 get_unitcell, 3070-3100
    get_positions: the same code.  max() of no keys is a ValueError *)
Definition get_steps {A} (data : option (ndict A)) (status : str) : res (per_step A) :=
  match data with
  | None => Ok NoData
  | Some d =>
      let* _ := check_status status in
      if seqb status (lit "initial") then let* v := of_option KeyError (ndget 1 d) in Ok (StepValue v)
      else if seqb status (lit "last") then
        let* k := of_option ValueError (max_key d) in let* v := of_option KeyError (ndget k d) in Ok (StepValue v)
      else Ok (AllSteps d)
  end.
Definition get_forces p := get_steps (p_force p).
Definition get_stress p := get_steps (p_stress p).
Definition get_unitcell p := get_steps (p_cell p).
Definition get_positions p := get_steps (p_pos p).
(** 3167-3329 get_energies.  An entry of an energy type: its arrays for the electronic steps
    and its final value *)
Definition energy_types : list str := [lit "energy_extrapolated"; lit "energy_free"; lit "energy_no_entropy"].
Definition energy_of (t : tot) (etype : str) : option row * option (option float) :=
  if seqb etype (lit "energy_extrapolated") then (to_extrapolated t, to_extrapolated_final t)
  else if seqb etype (lit "energy_free") then (to_free t, to_free_final t)
  else (to_no_entropy t, to_no_entropy_final t).
(** one ionic step: final value, energies, number of steps; nosc: only the last electronic
    step, counted as one *)
Definition one_step (t : tot) (etype : str) (nosc : bool) : res (option float * row * nat) :=
  let (a, f) := energy_of t etype in
  let* f := of_option KeyError f in
  let* a := of_option KeyError a in
  if nosc then let* e := of_option IndexError (nth_error a (length a - 1)) in Ok (f, [e], 1) else Ok (f, a, length a).
(** sorted(items): by key *)
Fixpoint insert_key {A} (p : nat * A) (l : ndict A) : ndict A :=
  match l with [] => [p] | q :: r => if Nat.leb (fst p) (fst q) then p :: l else q :: insert_key p r end.
Definition sort_keys {A} (d : ndict A) : ndict A := fold_right insert_key [] d.
(** 3222-3329 for one energy type *)
Definition selected (d : ndict tot) (status : str) : res (list tot) :=
  if seqb status (lit "initial") then let* t := of_option KeyError (ndget 1 d) in Ok [t]
  else if seqb status (lit "last") then let* k := of_option ValueError (max_key d) in let* t := of_option KeyError (ndget k d) in Ok [t]
  else Ok (map snd (sort_keys d)).
Record energies := Energies { en_types : list (str * (list (option float) * row)); en_steps : list nat }.
(** the entries of [etype] (a repeated type overwrites the same value); electronic_steps is
    that of the last type, and unbound if there is none *)
Definition get_energies (data : option (ndict tot)) (status : str) (etype : list str) (nosc : bool) : res (option energies) :=
  if negb (forallb (fun t => smem t energy_types) etype) then Exn ValueError else
  match data with
  | None => Ok None
  | Some d =>
      let* _ := check_status status in
      let* per := mapM (fun t => let* ts := selected d status in let* l := mapM (fun x => one_step x t nosc) ts in
                                 Ok (t, (map (fun r => fst (fst r)) l, flat_map (fun r => snd (fst r)) l), map snd l)) etype in
      let* last := of_option UnboundLocal (nth_error per (length per - 1)) in
      Ok (Some (Energies (map fst per) (snd last)))
  end.
(** 3524-3544 get_version: (\d+)\.(\d+)\.(\d+), the first match of a search *)
Definition version_here (t : str) : option str :=
  let (a, r1) := span is_digit t in
  match a, r1 with
  | _ :: _, d1 :: r2 =>
      let (b, r3) := span is_digit r2 in
      match b, r3 with
      | _ :: _, d2 :: r4 => let c := fst (span is_digit r4) in
                            match c with [] => None | _ => if aeqb d1 "." && aeqb d2 "." then Some (a ++ d1 :: b ++ d2 :: c) else None end
      | _, _ => None
      end
  | _, _ => None
  end.
Fixpoint search_version (t : str) : option str :=
  match version_here t with Some v => Some v | None => match t with [] => None | _ :: r => search_version r end end.
Definition get_version (p : parsed) : res str :=
  match p_version p with None => Exn AttributeError | Some v => of_option AttributeError (search_version (strip v)) end.
(** 2972-3020 *)
Definition get_epsilon (p : parsed) : res (option matrix) := match p_diel p with None => Exn TypeError | Some d => of_option KeyError (di_epsilon d) end.
Definition get_epsilon_ion (p : parsed) : res (option matrix) := match p_diel p with None => Exn TypeError | Some d => of_option KeyError (di_epsilon_ion d) end.
Definition fermi_of (o : option ddict) : res (option float) :=
  match o with None => Exn TypeError | Some d => match dd_all d with None => Exn KeyError | Some a => of_option KeyError (dp_fermi a) end end.
Definition get_fermi_level p := fermi_of (p_dos p).
Definition get_fermi_level_specific p := fermi_of (p_dos_specific p).

(** ** Choice of the method *)
(** where the document comes from: the path '', another path (None: it cannot be found), a
    handler in binary mode, a handler in text mode; the content in bytes *)
Inductive xsource := EmptyPath | FromPath (content : option str) | FromBytes (content : str) | FromText (content : str).
(** readlines()[-1]: the text after the last newline that is not the last character *)
Fixpoint last_line (acc t : str) : str :=
  match t with
  | [] => acc
  | [c] => acc ++ [c]
  | c :: r => if aeqb c nl then last_line [] r else last_line (acc ++ [c]) r
  end.
Definition closing : str := lit "</modeling>".
(** 3635-3666 _set_xml_truncated, after 3605-3633 _set_file_size: without a file there is no
    attribute _file_size (utils.py:86-120 file_exists exits for the path ''); a bytes
    literal is not in a str *)
Definition xml_truncated (s : xsource) : res bool :=
  let check b := if Nat.ltb 1024 (length b) then negb (substrb closing (last_line [] (skipn (length b - 1024) b))) else true in
  match s with
  | EmptyPath => Exn (SysExit 16)
  | FromPath None => Exn AttributeError
  | FromPath (Some b) | FromBytes b => Ok (check b)
  | FromText b => if Nat.ltb 1024 (length b) then Exn TypeError else Ok true
  end.
Definition content (s : xsource) : str := match s with FromPath (Some b) | FromBytes b | FromText b => b | _ => [] end.
(** 190-205 _parse: Regular recover, or Event.  size / 1048576.0 is exact *)
Inductive method := Regular (recover : bool) | Events.
Definition choose (size : N) (truncated event : bool) : method :=
  if ((size <? 500 * 1048576)%N || truncated) && negb event then Regular truncated else Events.
