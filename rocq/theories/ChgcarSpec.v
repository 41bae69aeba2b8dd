(** What a CHGCAR says, stated on its text. *)
From Coq Require Import Ascii String List NArith ZArith Bool Lia.
From Verif Require Import PyBase PyNum.
Import ListNotations.
Local Open Scope list_scope.

(** the first occurrence of [sep] in [t] is between [a] and [b] *)
Definition first_in (sep t a b : str) : Prop := t = a ++ sep ++ b /\ forall a' b', t = a' ++ sep ++ b' -> length a <= length a'.
(** the pieces of [t] between the occurrences of [sep], from left to right *)
Inductive pieces (sep : str) : str -> list str -> Prop :=
| pc_last t : (forall a b, t <> a ++ sep ++ b) -> pieces sep t [t]
| pc_more t a b ps : first_in sep t a b -> pieces sep b ps -> pieces sep t (a :: ps).
(** the part of a data set before its augmentation occupancies *)
Definition density_part (d part : str) : Prop :=
  (exists b, first_in (lit "augmentation occupancies") d part b) \/
  ((forall a b, d <> a ++ lit "augmentation occupancies" ++ b) /\ part = d).
(** the header is everything before the first empty line; the first line after it is
    the grid line [g]; the rest is data *)
Definition layout (t header g data : str) : Prop :=
  exists body, first_in [nl; nl] t header body /\ first_in [nl] body g data.
Definition header_line (header : str) (i : nat) (l : str) : Prop := nth_error (split_on nl header) i = Some l.

(** Numbers of a text.  [parse]: the value of a token. *)
Section Numbers.
Context {num : Type} (parse : str -> option num).
Definition is_num (w : str) (x : num) : Prop := ~ In "_"%char w /\ parse w = Some x.
(** the numbers at the beginning of a list of words: up to the first word that is not a
    number, or begins with a number only *)
Inductive reads : list str -> list num -> Prop :=
| rd_end : reads [] []
| rd_number w x ws xs : is_num w x -> reads ws xs -> reads (w :: ws) (x :: xs)
| rd_prefix w p r x ws : w = p ++ r -> r <> [] -> is_num p x ->
    (forall p' r' y, w = p' ++ r' -> is_num p' y -> length p' <= length p) -> reads (w :: ws) [x]
| rd_other w ws : (forall p r y, w = p ++ r -> ~ is_num p y) -> reads (w :: ws) [].
(** array[z][y][x] = v *)
Definition grid_at (a : list (list (list num))) (z y x : nat) (v : num) : Prop :=
  exists p q, nth_error a z = Some p /\ nth_error p y = Some q /\ nth_error q x = Some v.
Definition grid_shape (a : list (list (list num))) (nz ny nx : nat) : Prop :=
  length a = nz /\ forall p, In p a -> length p = ny /\ forall q, In q p -> length q = nx.
(** the array of the data set [d] on an nx * ny * nz grid: x runs fastest in the file *)
Definition density_of (div : num -> num -> num) (volume : num) (nx ny nz : nat) (d : str) (a : list (list (list num))) : Prop :=
  exists part vs, density_part d part /\ reads (split_ws part) vs /\ length vs = nx * ny * nz /\ grid_shape a nz ny nx /\
    forall x y z, x < nx -> y < ny -> z < nz -> exists v, nth_error vs (x + nx * (y + ny * z)) = Some v /\ grid_at a z y x (div v volume).
End Numbers.
(** The cell of the header: line 1 is the scaling factor, lines 2 to 4 are the lattice
    vectors (three numbers; one number stands for three equal ones) *)
Definition vector {num} (parse : str -> option num) (mul : num -> num -> num) (s : num) (l : str) (v : list num) : Prop :=
  exists xs, map parse (split_ws l) = map Some xs /\ ((length xs = 3 /\ v = map (mul s) xs) \/ exists x, xs = [x] /\ v = repeat (mul s x) 3).
Definition cell_of {num} (parse : str -> option num) (mul : num -> num -> num) (header : str) (s : num) (v0 v1 v2 : list num) : Prop :=
  exists l1 l2 l3 l4, header_line header 1 l1 /\ header_line header 2 l2 /\ header_line header 3 l3 /\ header_line header 4 l4 /\
    parse l1 = Some s /\ vector parse mul s l2 v0 /\ vector parse mul s l3 v1 /\ vector parse mul s l4 v2.
(** the grid line *)
Definition grid_line (g : str) (nx ny nz : nat) : Prop := map parse_int (split_ws g) = map Some [Z.of_nat nx; Z.of_nat ny; Z.of_nat nz].
(** the text of the source: a handler counts before a path; newlines of files are translated *)
Definition source_text (path : option (option str)) (handler : option str) (t : str) : Prop :=
  handler = Some t \/ (handler = None /\ exists u, path = Some (Some u) /\ t = translate_newlines u).
