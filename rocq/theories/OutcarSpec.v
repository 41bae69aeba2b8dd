(** What an OUTCAR says, stated on its lines without the parser's scanning loop. *)
From Coq Require Import Ascii String List NArith ZArith Bool Lia.
From Verif Require Import PyBase PyNum.
Import ListNotations.
Local Open Scope list_scope.

(** ** Generic: occurrences in a sequence of lines.  A predicate [P tail v] says that the
    first line of [tail] (which has the following lines behind it) says [v]. *)
(** what the last line that says something says; [None] when no line says anything *)
Definition last_said {V} (P : list str -> V -> Prop) (lines : list str) (o : option V) : Prop :=
  match o with
  | None => forall before tail v, lines = before ++ tail -> ~ P tail v
  | Some v => exists before tail, lines = before ++ tail /\ P tail v /\
      forall more tail' w, tail = more ++ tail' -> more <> [] -> ~ P tail' w
  end.
(** how many lines satisfy a predicate *)
Inductive occurrences (P : str -> Prop) : list str -> nat -> Prop :=
| occ_nil : occurrences P [] 0
| occ_yes l ls n : P l -> occurrences P ls n -> occurrences P (l :: ls) (S n)
| occ_no l ls n : ~ P l -> occurrences P ls n -> occurrences P (l :: ls) n.
(** what all the lines say, in order.  [P before tail vs]: the first line of [tail], after
    the lines [before], says [vs] *)
Inductive all_said {V} (P : list str -> list str -> list V -> Prop) : list str -> list str -> list V -> Prop :=
| said_nil before : all_said P before [] []
| said_cons before l ls v vs : P before (l :: ls) v -> all_said P (before ++ [l]) ls vs -> all_said P before (l :: ls) (v ++ vs).
(** a line that says at most one thing *)
Definition maybe {V} (P : V -> Prop) (vs : list V) : Prop := (exists v, P v /\ vs = [v]) \/ ((forall v, ~ P v) /\ vs = []).

(** ** Text patterns *)
Definition spaces (n : nat) : str := repeat sp n.
Definition digits (t : str) : Prop := t <> [] /\ forallb is_digit t = true.
Definition int_char (c : ascii) : bool := (is_digit c || Ascii.eqb c "-")%bool.
(** [l] has the marker 'Iteration   a(  b)' after [p] *)
Definition marker_at (l p a b : str) : Prop :=
  exists n m q, l = p ++ lit "Iteration" ++ spaces n ++ a ++ lit "(" ++ spaces m ++ b ++ lit ")" ++ q /\ digits a /\ digits b.
Definition is_marker (l : str) : Prop := exists p a b, marker_at l p a b.
(** the leftmost marker of [l] says ionic step [x], electronic step [y] *)
Definition says_iteration (l : str) (xy : Z * Z) : Prop :=
  exists p a b, marker_at l p a b /\ parse_int a = Some (fst xy) /\ parse_int b = Some (snd xy) /\
    forall p' a' b', marker_at l p' a' b' -> length p <= length p'.
(** [l] is '   KEY  =  value...' and the value is the longest run of digits and minus signs *)
Definition assigns (key : string) (l : str) (z : Z) : Prop :=
  exists n m k t r, l = spaces (S n) ++ lit key ++ spaces m ++ lit "=" ++ spaces k ++ t ++ r /\
    t <> [] /\ forallb int_char t = true /\ match r with [] => True | c :: _ => int_char c = false end /\ parse_int t = Some z.
(** the text of [l] between the first occurrence of [d] and the second (or the end) *)
Definition between (d l t : str) : Prop :=
  exists p r, l = p ++ d ++ t ++ r /\
    (forall p' r', l = p' ++ d ++ r' -> length p <= length p') /\
    (r = [] /\ (forall p' r', t <> p' ++ d ++ r') \/
     (exists r0, r = d ++ r0) /\ forall p' r', t ++ r = p' ++ d ++ r' -> length t <= length p').
Definition has (l : str) (p : string) : Prop := exists a b, l = a ++ lit p ++ b.
(** [l] begins with [p], blanks at both ends removed *)
Definition begins (l : str) (p : string) : Prop := exists r, strip l = lit p ++ r.

(** ** The lines, other than Iteration markers, that say something *)
Definition plain (P : str -> Prop) (l : str) : Prop := ~ is_marker l /\ P l.
Definition head_line (P : str -> Prop) (tail : list str) : Prop := match tail with [] => False | l :: _ => P l end.
Definition iterates (tail : list str) (xy : Z * Z) : Prop := head_line (fun l => says_iteration l xy) tail.
Definition param (key : string) (tail : list str) (z : Z) : Prop := head_line (plain (fun l => assigns key l z)) tail.
Definition nbands_said (tail : list str) (z : Z) : Prop :=
  head_line (plain (fun l => exists t, between (lit "NBANDS=") l t /\ parse_int (strip t) = Some z)) tail.
Definition run_finished (lines : list str) : Prop :=
  Exists (plain (fun l => has l "timing and accounting informations")) lines.
(** the number of electronic steps of ionic step [x] *)
Definition elec_steps (lines : list str) (x : Z) (n : nat) : Prop :=
  occurrences (fun l => exists y, says_iteration l (x, y)) lines n.
Definition ionic_step (lines : list str) (x : Z) : Prop := Exists (fun l => exists y, says_iteration l (x, y)) lines.
(** ionic step [x] reached the maximal number of electronic steps *)
Definition breached (lines : list str) (nelm x : Z) : Prop :=
  ionic_step lines x /\ exists n, elec_steps lines x n /\ (nelm <= Z.of_nat n)%Z.

(** ** Symmetry *)
Inductive section := Static | Dynamic.
Definition header (s : section) : string :=
  match s with Static => "Analysis of symmetry for initial positions (statically)" | Dynamic => "Analysis of symmetry for dynamics" end.
(** the section a line is in: the last header, its own line included *)
Definition in_section (before : list str) (l : str) (s : section) : Prop :=
  last_said (fun tail s => head_line (plain (fun l => begins l (header s))) tail) (before ++ [l]) (Some s).
Definition in_line (s : section) (P : str -> Prop) (before tail : list str) : Prop :=
  head_line (fun l => ~ is_marker l /\ in_section before l s /\ P l) tail.
(** 'Subroutine GETGRP returns: Found 48 ...': the fifth word *)
Definition operations_said (s : section) (before tail : list str) (z : Z) : Prop :=
  in_line s (fun l => begins l "Subroutine GETGRP returns" /\ exists w, nth_error (split_ws l) 4 = Some w /\ parse_int w = Some z) before tail.
(** the line after 'Routine SETGRP: Setting up the symmetry group for a' *)
Definition cell_said (s : section) (before tail : list str) (t : str) : Prop :=
  in_line s (fun l => begins l "Routine SETGRP: Setting up the symmetry group for a" /\ exists n, nth_error tail 1 = Some n /\ t = lower (strip n)) before tail.

(** ** Elastic moduli: six rows of numbers, the first word of each row a label *)
Definition numbers (ws : list str) (xs : list float) : Prop := Forall2 (fun w x => parse_float w = Some x) ws xs.
Definition table (tail : list str) (rows : list (list float)) : Prop :=
  Forall2 (fun i row => exists l, nth_error tail i = Some l /\ numbers (tl (split_ws l)) row) [3; 4; 5; 6; 7; 8] rows.
Definition elastic (hd : string) (tail : list str) (rows : list (list float)) : Prop :=
  head_line (plain (fun l => begins l hd)) tail /\ table tail rows.

(** ** Magnetization *)
(** 'label  s  p  d  f  tot' (as many orbitals as there are) *)
Definition moments_of (l : str) (m : dict float) : Prop :=
  exists ws xs t, split_ws l = ws /\ numbers (removelast (tl ws)) xs /\ length xs <= 4 /\ parse_float (last ws []) = Some t /\
    m = combine (map lit ["s"; "p"; "d"; "f"]%string) xs ++ [(lit "tot", t)].
(** the lines of a table: its rows and, if there is a line of totals, the totals *)
Inductive mag_lines : list str -> list (Z * dict float) -> option (dict float) -> Prop :=
| ml_blank l rest : split_ws l = [] -> mag_lines (l :: rest) [] None
| ml_total l rest m : begins l "tot" -> moments_of l m -> mag_lines (l :: rest) [] (Some m)
| ml_rule l rest rows t : begins l "-" -> mag_lines rest rows t -> mag_lines (l :: rest) rows t
| ml_row l rest w k m rows t : split_ws l <> [] -> ~ begins l "-" -> ~ begins l "tot" ->
    nth_error (split_ws l) 0 = Some w -> parse_int w = Some k -> moments_of l m ->
    mag_lines rest rows t -> mag_lines (l :: rest) ((k, m) :: rows) t.
(** the table under the header 'magnetization (x)', which starts four lines below *)
Definition mag_table (p : string) (tail : list str) (t : list (Z * dict float) * option (dict float)) : Prop :=
  head_line (plain (fun l => begins l ("magnetization (" ++ p ++ ")"))) tail /\ mag_lines (skipn 4 tail) (fst t) (snd t).
(** 'number of electron ...': the numbers from the sixth word on *)
Definition cell_moment (tail : list str) (xs : list float) : Prop :=
  head_line (plain (fun l => begins l "number of electron" /\ numbers (skipn 5 (split_ws l)) xs)) tail.

(** ** Timings and memory *)
(** the words of [before], lower case, without the last one (the unit), joined by '_' *)
Definition entry_name (before : str) : str := join (lit "_") (map lower (removelast (split_ws before))).
(** 'Total CPU time used (sec):   12.5': [before] the first colon and the text [t] between
    it and the next one *)
Definition timed (l name : str) (v : option float) : Prop :=
  (has l "(sec)" \/ has l "(kb)") /\ exists before t r, strip l = before ++ lit ":" ++ t ++ r /\ ~ In ":"%char before /\ ~ In ":"%char t /\
    (r = [] \/ exists r0, r = lit ":" ++ r0) /\ name = entry_name before /\ v = parse_float (strip t).
Definition colon_or_space (c : ascii) : bool := (Ascii.eqb c ":" || Ascii.eqb c " ")%bool.
(** [v] is the last but one of the pieces of [l] separated by runs of colons and spaces, [k] the first *)
Definition first_piece (l k : str) : Prop := exists r, l = k ++ r /\ forallb (fun c => negb (colon_or_space c)) k = true /\ match r with [] => True | c :: _ => colon_or_space c = true end.
Definition last_but_one (l v : str) : Prop :=
  exists pre seps w, l = pre ++ v ++ seps ++ w /\ seps <> [] /\ forallb colon_or_space seps = true /\
    forallb (fun c => negb (colon_or_space c)) v = true /\ forallb (fun c => negb (colon_or_space c)) w = true /\
    (pre = [] \/ v <> [] /\ exists p c, pre = p ++ [c] /\ colon_or_space c = true).
(** 'total amount of memory used by VASP MPI-rank0    12345. kBytes': a colon, and kBytes at the end *)
Definition ends_kbytes (l : str) : Prop := exists a b, (l = a ++ lit ":" ++ b ++ lit "kBytes" \/ l = a ++ lit ":" ++ b ++ lit "kBytes" ++ [nl]).
Definition measured (l name : str) (v : option float) : Prop :=
  ~ has l "(sec)" /\ ~ has l "(kb)" /\ ends_kbytes l /\
  exists k t, first_piece (strip l) k /\ last_but_one (strip l) t /\ name = lit "mem_usage_" ++ k /\ v = parse_float t.
Definition timing (name : str) (tail : list str) (v : option float) : Prop := head_line (fun l => timed l name v \/ measured l name v) tail.
