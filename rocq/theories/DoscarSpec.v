(** What a DOSCAR says, stated on its lines: VASP's documented layout. *)
From Coq Require Import Ascii String List NArith ZArith Bool Lia.
From Verif Require Import PyBase PyNum.
Import ListNotations.
Local Open Scope list_scope.

(** line [i] exists and its words are the numbers [row] *)
Definition row_at (lines : list str) (i : nat) (row : list float) : Prop :=
  exists l, nth_error lines i = Some l /\ map parse_float (split_ws l) = map Some row.
(** A row of a table is the energy followed by the quantities one after the other, each
    with [ns] columns (one per spin channel or magnetization component) *)
Definition documented (names : list str) (ns : nat) (row : list float) (energy : float) (fields : list (str * list float)) : Prop :=
  map fst fields = names /\ row = energy :: concat (map snd fields) /\ Forall (fun f => length (snd f) = ns) fields.
(** What the rows hold instead: the [j]-th quantity has the [ns] columns from column
    [j + 1] on *)
Definition overlapping (names : list str) (ns : nat) (row : list float) (energy : float) (fields : list (str * list float)) : Prop :=
  map fst fields = names /\ (exists rest, row = energy :: rest) /\
  forall j name cols, nth_error fields j = Some (name, cols) -> length cols = ns /\ exists a b, row = a ++ cols ++ b /\ length a = j + 1.

Definition names_dos : list str := map lit ["total"; "integrated"]%string.
Definition s_p_d : list str := map lit ["s"; "p"; "d"]%string.
Definition s_p_d_f : list str := map lit ["s"; "p"; "d"; "f"]%string.
Definition lm_to_d : list str := map lit ["s"; "py"; "px"; "pz"; "dxy"; "dyz"; "dz2"; "dxz"; "dx2-y2"]%string.
Definition lm_to_f : list str := lm_to_d ++ map lit ["fy(3x2-y2)"; "fxyz"; "fyz2"; "fz3"; "fxz2"; "fz(x2-y2)"; "fx(x2-3y2)"]%string.
(** the layouts of the projected tables: orbitals and components *)
Definition collinear_layouts : list (list str * nat) := [(s_p_d, 1); (s_p_d, 2); (s_p_d_f, 1); (s_p_d_f, 2); (lm_to_d, 1); (lm_to_d, 2); (lm_to_f, 1); (lm_to_f, 2)].
Definition noncollinear_layouts : list (list str * nat) := [(s_p_d, 4); (s_p_d_f, 4); (lm_to_d, 4); (lm_to_f, 4)].
Definition columns (layout : list str * nat) : nat := 1 + length (fst layout) * snd layout.
(** equality of rows as Python compares lists of floats *)
Definition same_row (a b : list float) (eq : float -> float -> bool) : Prop := Forall2 (fun x y => eq x y = true) a b.
(** line [6 + s] is the first line of the data that repeats line 5 *)
Definition first_repeat (eq : float -> float -> bool) (lines : list str) (s : nat) : Prop :=
  exists hdr row, row_at lines 5 hdr /\ row_at lines (6 + s) row /\ same_row row hdr eq /\
    forall s' row', s' < s -> row_at lines (6 + s') row' -> ~ same_row row' hdr eq.
(** [z] is [x] without its fractional part *)
Definition truncated (x : float) (z : Z) : Prop :=
  match x with
  | FFin neg m e => let num := (Z.of_N m * 2 ^ Z.max e 0)%Z in let den := (2 ^ Z.max (- e) 0)%Z in
      (den * Z.abs z <= num < den * (Z.abs z + 1))%Z /\ (z <> 0 -> (z < 0 <-> neg = true))%Z
  | _ => False
  end.
(** Header of a DOSCAR: line 0 has four integers, line 3 one word, line 5 five numbers *)
Record header (lines : list str) (ions atoms : Z) (coordinates name : str) (emax emin n efermi weight : float) : Prop := Header {
  hd_counts : exists l a b, nth_error lines 0 = Some l /\ map parse_int (split_ws l) = map Some [ions; atoms; a; b];
  hd_coordinates : exists l, nth_error lines 3 = Some l /\ split_ws l = [coordinates];
  hd_name : exists l, nth_error lines 4 = Some l /\ name = strip l;
  hd_energies : row_at lines 5 [emax; emin; n; efermi; weight] }.
Definition first_is (s : str) (cs : list ascii) : Prop := match s with [] => False | c :: _ => In c cs end.
