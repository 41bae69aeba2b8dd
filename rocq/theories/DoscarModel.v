(** Model of parsevasp/doscar.py.  Loggers are not modelled.  A structured numpy array is
    a list of rows of named fields, each field a list of components.  Ragged tables (which
    numpy rejects, with an exception that depends on its version) end in OutOfModel. *)
From Coq Require Import Ascii String List NArith ZArith Bool Lia.
From Verif Require Import PyBase PyNum UtilsModel LineModel.
Import ListNotations.
Local Open Scope list_scope.

(** doscar.py:10-13: the fields after the energy, and the number of components of each *)
Definition dtype_dos (count : nat) : option (list str * nat) :=
  match count with
  | 3 => Some (map lit ["total"; "integrated"]%string, 1)
  | 5 => Some (map lit ["total"; "integrated"]%string, 2)
  | _ => None
  end.
Definition l_names (n : nat) : list str := map lit (firstn n ["s"; "p"; "d"; "f"]%string).
Definition lm_names : list string :=
  ["s"; "py"; "px"; "pz"; "dxy"; "dyz"; "dz2"; "dxz"; "dx2-y2"; "fy(3x2-y2)"; "fxyz"; "fyz2"; "fz3"; "fxz2"; "fz(x2-y2)"; "fx(x2-3y2)"]%string.
(** 16-43 DTYPES_PDOS_COLLINEAR, 64-73 COLSPIN_MAP_COLLINEAR, 83-104 *)
Definition dtype_collinear (count : nat) : option (list str * nat) :=
  match count with
  | 4 => Some (l_names 3, 1)
  | 7 => Some (l_names 3, 2)
  | 5 => Some (l_names 4, 1)
  | 9 => Some (l_names 4, 2)
  | 10 => Some (map lit (firstn 9 lm_names), 1)
  | 17 => Some (map lit lm_names, 1)
  | 19 => Some (map lit (firstn 9 lm_names), 2)
  | 33 => Some (map lit lm_names, 2)
  | _ => None
  end.
(** 45-61 DTYPES_PDOS_NONCOLLINEAR ('x2-y2' is the name in the source), 75-80 *)
Definition dtype_noncollinear (count : nat) : option (list str * nat) :=
  match count with
  | 13 => Some (l_names 3, 4)
  | 17 => Some (l_names 4, 4)
  | 37 => Some (map lit (firstn 8 lm_names ++ ["x2-y2"]%string), 4)
  | 65 => Some (map lit lm_names, 4)
  | _ => None
  end.

(** one row of a structured array *)
Record dos_row := DosRow { row_energy : float; row_fields : list (str * list float) }.
(** 207-215, 235-240: data[:, i + 1:i + 1 + num_spin] for the i-th name *)
Definition fields (names : list str) (num_spin : nat) (row : list float) : list (str * list float) :=
  map (fun iname => (snd iname, firstn num_spin (skipn (fst iname + 1) row))) (combine (seq 0 (length names)) names).
Definition to_row (names : list str) (num_spin : nat) (row : list float) : res dos_row :=
  let* e := py_nth row 0 in Ok (DosRow e (fields names num_spin row)).
(** np.array(rows): rows of equal lengths *)
Definition rectangular (count : nat) (rows : list (line_value float)) : res (list (list float)) :=
  mapM (fun r => match r with Many l => if Nat.eqb (length l) count then Ok l else Exn OutOfModel | One _ => Exn OutOfModel end) rows.

Record dos_meta := DosMeta { dm_ions : Z; dm_atoms : Z; dm_cartesian : bool; dm_name : str; dm_emax : float; dm_emin : float; dm_ndos : Z; dm_efermi : float; dm_weight : float }.
Record doscar := Doscar { ds_meta : dos_meta; ds_dos : list dos_row; ds_pdos : list (list dos_row) }.

(** line_2 in data, data.index(line_2): [line_2] is a list *)
Fixpoint find_row (x : list float) (data : list (line_value float)) : option nat :=
  match data with
  | [] => None
  | v :: r => if match v with Many l => floats_eq l x | One _ => false end then Some 0 else option_map S (find_row x r)
  end.
(** 221-224 *)
Fixpoint pdos_items (data : list (line_value float)) (n : nat) (ndos start : Z) : list (list (line_value float)) :=
  match n with
  | O => []
  | S n' => py_slice data start (start + ndos) :: pdos_items data n' ndos (start + (ndos + 1))
  end.
(** 226-240 *)
Definition parse_pdos (non_collinear : bool) (items : list (list (line_value float))) : res (list (list dos_row)) :=
  let* it := py_get items (-1) in
  let* v := py_get it (-1) in
  let* count := len v in
  let* tables := mapM (rectangular count) items in                              (* 228 *)
  let* (_, num_spin) := of_option ValueError (if non_collinear then dtype_noncollinear count else dtype_collinear count) in   (* 231 *)
  let* (names, _) := of_option ValueError (if non_collinear then dtype_noncollinear count else dtype_collinear count) in      (* 233 *)
  if forallb (fun t => Nat.eqb (length t) (length it)) items then               (* 228: one shape *)
    mapM (mapM (to_row names num_spin)) tables
  else Exn OutOfModel.
(** 161-257 _from_list *)
Definition from_list (non_collinear : bool) (lines : list str) : res doscar :=
  let* l0 := py_nth lines 0 in let* h := line_to_type to_int l0 in let* h := unpack 4 h in       (* 174 *)
  let* l3 := py_nth lines 3 in let* coord := line_to_type to_str l3 in                           (* 186 *)
  let* l4 := py_nth lines 4 in                                                                  (* 189 *)
  let* l5 := py_nth lines 5 in let* v2 := line_to_type to_float l5 in let* line_2 := unpack 5 v2 in   (* 192-193 *)
  let* ndos := int_of_float (nth 2 line_2 FNan) in                                              (* 194 *)
  let* data := mapM (line_to_type to_float) (skipn 6 lines) in                                  (* 197 *)
  let* last := py_get data (ndos - 1) in let* count := len last in                              (* 201 *)
  let rows := py_upto data ndos in
  let* dos_data := rectangular count rows in                                                    (* 208 *)
  let* (names, num_spin) := of_option KeyError (dtype_dos count) in                             (* 209 *)
  let* _ := match dos_data with [] => Exn IndexError | _ => Ok tt end in                        (* 210: dos_data[:, 0] *)
  let* dos := mapM (to_row names num_spin) dos_data in
  let* pdos := match find_row line_2 data with                                                  (* 217-240 *)
               | None => Ok []
               | Some i => parse_pdos non_collinear (pdos_items data (Z.to_nat (nth 0 h 0%Z)) ndos (Z.of_nat i + 1))
               end in
  let* cart := starts_with_c coord in                                                           (* 245 *)
  Ok (Doscar (DosMeta (nth 0 h 0%Z) (nth 1 h 0%Z) cart (line_text l4) (nth 0 line_2 FNan) (nth 1 line_2 FNan) ndos (nth 3 line_2 FNan) (nth 4 line_2 FNan)) dos pdos).
(** 113-157 *)
Definition doscar_init (path : source_path) (handler : source_handler) (non_collinear : bool) : res doscar :=
  if negb (is_some path) && negb (is_some handler) then Exn (SysExit 10)
  else let* lines := read_from_file path handler CNone in from_list non_collinear lines.
