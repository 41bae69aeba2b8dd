(** What an EIGENVAL says, stated on its lines. *)
From Coq Require Import Ascii String List NArith ZArith Bool Lia.
From Verif Require Import PyBase PyNum.
Import ListNotations.
Local Open Scope list_scope.

(** a line of white space *)
Definition blank (l : str) : Prop := split_ws l = [].
(** [ps]: the paragraphs of [ls], the longest runs of lines that are not blank *)
Inductive paragraphs : list str -> list (list str) -> Prop :=
| par_end ls : Forall blank ls -> paragraphs ls []
| par_next ls p rest ps : Forall blank ls -> p <> [] -> Forall (fun l => ~ blank l) p ->
    match rest with [] => True | l :: _ => blank l end -> paragraphs rest ps -> paragraphs (ls ++ p ++ rest) (p :: ps).
(** the only character that ends a line is the newline *)
Definition newlines_only (ls : list str) : Prop := forall l c, In l ls -> In c l -> is_break c = true -> c = nl.
(** the numbers of a row of places given by some words: one each, or one for all *)
Definition given (n : nat) (ws : list str) (j : nat) (x : float) : Prop :=
  j < n /\ ((length ws = n /\ exists t, nth_error ws j = Some t /\ parse_float t = Some x) \/ (exists t, ws = [t] /\ parse_float t = Some x)).
(** the first word of the line is the number of band [b] (counting from 0) among [nb];
    numbers below 1 count from the last band *)
Definition names_band (nb : nat) (l : str) (b : nat) : Prop :=
  exists w ws z, split_ws l = w :: ws /\ parse_int w = Some z /\
    (z = Z.of_nat b + 1 \/ (z <= 0 /\ z = Z.of_nat b + 1 - Z.of_nat nb))%Z.
(** the value of band [b] at spin [s] in the lines of a k-point: the last line that names
    the band counts; a band without a line is zero *)
Definition band_energy (ns nb : nat) (rows : list str) (s b : nat) (x : float) : Prop :=
  (exists before row after, rows = before ++ row :: after /\ names_band nb row b /\ given ns (firstn ns (tl (split_ws row))) s x /\ forall r, In r after -> ~ names_band nb r b) \/
  ((forall r, In r rows -> ~ names_band nb r b) /\ x = FFin false 0 0).
(** array[s][k][b] = x *)
Definition at3 (a : list (list (list float))) (s k b : nat) (x : float) : Prop :=
  exists p q, nth_error a s = Some p /\ nth_error p k = Some q /\ nth_error q b = Some x.
Definition shape3 (a : list (list (list float))) (n1 n2 n3 : nat) : Prop :=
  length a = n1 /\ forall p, In p a -> length p = n2 /\ forall q, In q p -> length q = n3.
(** Header: line 0 four integers, line 3 one word, line 5 three integers *)
Record header (lines : list str) (ions atoms p00 nspin some kp bands : Z) (coordinates name : str) : Prop := Header {
  hd_counts : exists l, nth_error lines 0 = Some l /\ map parse_int (split_ws l) = map Some [ions; atoms; p00; nspin];
  hd_coordinates : exists l, nth_error lines 3 = Some l /\ split_ws l = [coordinates];
  hd_name : exists l, nth_error lines 4 = Some l /\ name = strip l;
  hd_sizes : exists l, nth_error lines 5 = Some l /\ map parse_int (split_ws l) = map Some [some; kp; bands] }.
Definition floats_at (lines : list str) (i : nat) (xs : list float) : Prop :=
  exists l, nth_error lines i = Some l /\ map parse_float (split_ws l) = map Some xs.
(** lines that can be read: numbers for [n] places; a k-point with its bands *)
Definition readable (n : nat) (ws : list str) : Prop := (length ws = n \/ length ws = 1) /\ Forall (fun t => parse_float t <> None) ws.
Definition readable_block (ns nb : nat) (p : list str) : Prop :=
  exists first rows, p = first :: rows /\ readable 4 (split_ws first) /\
    forall row, In row rows -> (exists b, b < nb /\ names_band nb row b) /\ readable ns (firstn ns (tl (split_ws row))).
(** the body does not begin with two blank lines, and its last line is not blank *)
Definition well_spaced (ls : list str) : Prop :=
  ~ blank (last ls []) /\ match ls with a :: b :: _ => ~ (blank a /\ blank b) | _ => True end.
