(** What a vasprun.xml says, stated on its elements. *)
From Coq Require Import Ascii String List NArith ZArith Bool Lia.
From Verif Require Import PyBase PyNum VasprunTypes VasprunXml ChgcarSpec.
Import ListNotations.
Local Open Scope list_scope.

(** ** Numbers in elements *)
(** ordinary characters: no white space but blanks, tabs and line ends, no parenthesis *)
Definition ordinary (t : str) : Prop :=
  forall c, In c t -> c <> "("%char /\ (is_space c = true -> (9 <= N_of_ascii c <= 13)%N \/ N_of_ascii c = 32%N).
(** the text of [e] is the numbers [xs], with white space between them *)
Definition holds (e : xml) (xs : list float) : Prop :=
  exists t, text e = Some t /\ ordinary t /\ Forall2 (is_num parse_float) (split_ws t) xs.

(** ** Tables *)
(** column [c] of row [i] *)
Definition cell_at {A} (rows : list (list A)) (i c : nat) (v : A) : Prop := exists r, nth_error rows i = Some r /\ nth_error r c = Some v.
Definition shape2 {A} (m : list (list A)) (a b : nat) : Prop := length m = a /\ forall r, In r m -> length r = b.
Definition at2 {A} (m : list (list A)) (i j : nat) (v : A) : Prop := cell_at m i j v.
Definition shape3 {A} (m : list (list (list A))) (a b c : nat) : Prop := length m = a /\ forall p, In p m -> shape2 p b c.
Definition at3 {A} (m : list (list (list A))) (i j k : nat) (v : A) : Prop := exists p, nth_error m i = Some p /\ at2 p j k v.

(** In the file the band index runs faster than the k-point index.  [m] holds one value
    per band and k-point: [value i v] says that v is the value of the i-th row of the file *)
Definition by_band {A} (k_before_band : bool) (num_bands num_kpoints : nat) (value : nat -> A -> Prop) (m : list (list A)) : Prop :=
  if k_before_band
  then shape2 m num_kpoints num_bands /\ forall b k, b < num_bands -> k < num_kpoints -> exists v, at2 m k b v /\ value (k * num_bands + b) v
  else shape2 m num_bands num_kpoints /\ forall b k, b < num_bands -> k < num_kpoints -> exists v, at2 m b k v /\ value (k * num_bands + b) v.
(** the ion index runs fastest; [m] has the ion index first *)
Definition by_ion_band {A} (k_before_band : bool) (num_ions num_bands num_kpoints : nat) (value : nat -> A -> Prop) (m : list (list (list A))) : Prop :=
  length m = num_ions /\ forall a p, nth_error m a = Some p -> by_band k_before_band num_bands num_kpoints (fun i v => value (i * num_ions + a) v) p.

(** ** Ionic steps *)
(** the data of one ionic step: cell, positions, forces, stress *)
Record ion_step := IonStep { st_cell : matrix; st_pos : matrix; st_force : matrix; st_stress : matrix }.
Definition basis_path : list pstep := [Tag "structure"; Tag "crystal"; TagAt "varray" "name" "basis"; Tag "v"].
Definition positions_path : list pstep := [Tag "structure"; TagAt "varray" "name" "positions"; Tag "v"].
Definition varray_path (n : string) : list pstep := [TagAt "varray" "name" n; Tag "v"].
(** the elements [es] are the rows of an [n] x 3 table *)
Definition rows_hold (n : nat) (es : list xml) (m : matrix) : Prop := Forall2 holds es m /\ shape2 m n 3.
(** the calculation element [c] with one structure describes the step [s] of [n] atoms *)
Definition step_holds (n : nat) (c : xml) (s : ion_step) : Prop :=
  length (findall_child [Tag "structure"] c) = 1 /\
  rows_hold 3 (findall_child basis_path c) (st_cell s) /\ rows_hold n (findall_child positions_path c) (st_pos s) /\
  rows_hold n (findall_child (varray_path "forces") c) (st_force s) /\ rows_hold 3 (findall_child (varray_path "stress") c) (st_stress s).
(** the calculations of the document, in document order *)
Definition calculations (x : xml) : list xml := findall_deep [Tag "calculation"] x.
(** a dict whose keys 1, 2, ... are the steps *)
Definition steps_dict {A} (l : list A) (d : ndict (option A)) : Prop :=
  length d = length l /\ forall i v, nth_error l i = Some v -> nth_error d i = Some (S i, Some v).

(** ** Energies *)
(** the energies of one type in one ionic step: one per electronic step, and the final one *)
Record energy_pair := EnergyPair { ep_steps : list float; ep_final : float }.
Definition scstep_path (key : string) : list pstep := [Tag "scstep"; Tag "energy"; TagAt "i" "name" key].
Definition final_path (key : string) : list pstep := [Tag "energy"; TagAt "i" "name" key].
Definition energy_holds (c : xml) (key : string) (p : energy_pair) : Prop :=
  Forall2 (fun e v => holds e [v]) (findall_deep (scstep_path key) c) (ep_steps p) /\ ep_steps p <> [] /\
  exists e rest t, findall_child (final_path key) c = e :: rest /\ text e = Some t /\ (forall a b, t <> a ++ lit "****" ++ b) /\ parse_float t = Some (ep_final p).
(** the energies of one ionic step, by type *)
Definition keys_of_types : list (str * string) :=
  [(lit "energy_extrapolated", "e_0_energy"%string); (lit "energy_free", "e_fr_energy"%string); (lit "energy_no_entropy", "e_wo_entrp"%string)].
Definition energies_hold (c : xml) (f : str -> energy_pair) : Prop := forall t k, In (t, k) keys_of_types -> energy_holds c k (f t).
(** the ionic steps that a status selects *)
Inductive selects {A} : str -> list A -> list A -> Prop :=
| sel_initial a r : selects (lit "initial") (a :: r) [a]
| sel_last p a : selects (lit "last") (p ++ [a]) [a]
| sel_all l : selects (lit "all") l l.
(** the energies of the electronic steps that are shown: all, or the last one *)
Definition shown (nosc : bool) (xs : list float) : list float :=
  if nosc then match rev xs with v :: _ => [v] | [] => [] end else xs.
