(** Vocabulary used to state the POSCAR theorems. *)
From Coq Require Import Ascii String List NArith ZArith QArith Qabs Bool Lia Permutation.
From Verif Require Import PyBase PyNum PyStrLemmas UtilsModel KpointsModel PoscarModel ArithModel KpointsSpec PoscarGroup.
Import ListNotations.
Local Open Scope list_scope.
Local Open Scope nat_scope.

(** The lines the reader is given through each channel *)
Definition plines (ch : channel) (txt : str) : list str :=
  match ch with
  | FromString => splitlines_keep txt
  | FromFile => readlines (translate_newlines txt)
  | FromHandler => readlines txt
  end.
Definition pread (A : arith) (ch : channel) (txt : str) : res (pentries A) :=
  match ch with
  | FromString => poscar_of_string A txt
  | FromFile => poscar_of_file A txt
  | FromHandler => poscar_of_handler A txt
  end.
Definition pholds {A} (es : pentries A) (k : string) (v : pval A) : Prop := dget (lit k) es = Some v.

(** species and counts announced by the header: [spec] and [atoms] are its tokens *)
Definition announced (spec : list str) (atoms : list Z) : list str :=
  flat_map (fun sn => repeat (fst sn) (Z.to_nat (snd sn))) (combine spec atoms).
Definition total (atoms : list Z) : Z := fold_left Z.add atoms 0%Z.

(** line [i] is made of these tokens *)
Definition tokens_at (ls : list str) (i : nat) (ts : list str) : Prop :=
  exists l, nth_error ls i = Some l /\ split_ws l = ts.
(** a line starting with three numbers *)
Definition three_numbers (A : arith) (l : str) (x y z : num A) : Prop :=
  exists a b c r, split_ws l = a :: b :: c :: r /\ nparse A a = Some x /\ nparse A b = Some y /\ nparse A c = Some z.
(** a line of numbers *)
Definition number_line (A : arith) (l : str) (xs : list (num A)) : Prop :=
  Forall2 (fun t x => nparse A t = Some x) (split_ws l) xs.
(** the first character of line [i] *)
Definition starts (ls : list str) (i : nat) (c : ascii) : Prop := exists r, nth_error ls i = Some (c :: r).
(** first line of the positions; whether they are labelled direct *)
Definition layout (ls : list str) (selective direct : bool) (first : nat) : Prop :=
  exists c, starts ls 7 c /\
    if selective then lower1 c = "s"%char /\ first = 9 /\ exists c', starts ls 8 c' /\ direct = aeqb (lower1 c') "d"
    else lower1 c <> "s"%char /\ first = 8 /\ direct = aeqb (lower1 c) "d".

(** what the writer shows of a site *)
Definition view (A : arith) (s : site A) : wsite A :=
  WSite A (get_specie A s) (si_position A s) (si_selective A s) (si_velocities A s) (si_predictors A s).
(** the order in which sites are written: as they are, or gathered by species with
    the sites of one species in their original order *)
Definition order_written (A : arith) (conserve : bool) (ws out : list (wsite A)) : Prop :=
  if conserve then out = ws
  else Permutation out ws /\ (forall k, filter (of_specie A k) out = filter (of_specie A k) ws) /\
       exists gs, NoDup (map fst gs) /\ map (ws_specie A) out = expand gs.
(** names that survive in a file: no blank, and not all readable as numbers *)
Definition species_readable (A : arith) (l : list (site A)) : Prop :=
  Forall (fun s => is_token (si_specie A s) = true) l /\
  (l = [] \/ Exists (fun s => is_number (get_specie A s) = false) l).
Definition comment_plain (A : arith) (es : pentries A) : Prop :=
  forall t, pholds es "comment" (PStr A t) -> nobreak t = true.
(** [y] is within half a unit of the last of [p] decimals of [x] *)
Definition half_unit (p : nat) (x y : Q) : Prop := (Qabs (y - x) <= / (2 * inject_Z (10 ^ Z.of_nat p)))%Q.
(** flags written for a site: the first three, absent ones are true *)
Definition three_flags (f : list bool) : list bool := [nth 0 f true; nth 1 f true; nth 2 f true].
(** two optional vectors: both absent, or both present and related *)
Definition both {V} (R : V -> V -> Prop) (o o' : option V) : Prop :=
  match o, o' with None, None => True | Some v, Some v' => R v v' | _, _ => False end.
(** a site as written and as read back: [pos] relates positions and velocities, [pre]
    predictor coordinates *)
Definition site_kept (A : arith) (pos pre : list (num A) -> list (num A) -> Prop) (w : wsite A) (s : site A) : Prop :=
  get_specie A s = ws_specie A w /\ si_direct A s = true /\ si_selective A s = three_flags (ws_selective A w) /\
  pos (ws_position A w) (si_position A s) /\
  both pos (ws_velocities A w) (si_velocities A s) /\ both pre (ws_predictors A w) (si_predictors A s).
(** the line [l] shows the site [w]: its three coordinates (or, in cartesian form, the
    three coordinates times the lattice) with [prec] decimals, followed by three flags
    when the file is selective *)
Definition shows_site (A : arith) (prec : nat) (wd selective : bool) (cell : list (list (num A))) (w : wsite A) (l : str) : Prop :=
  exists x y z r, (if wd then ws_position A w = x :: y :: z :: r else ndot A (firstn 3 (ws_position A w)) cell = x :: y :: z :: r) /\
    split_ws l = map (nfmt A 0 prec) [x; y; z] ++
                 (if selective then map (fun b : bool => if b then lit "T" else lit "F") (three_flags (ws_selective A w)) else []).
(** three numbers of a vector and what they become *)
Definition three_by {T U} (R : T -> U -> Prop) (v : list T) (v' : list U) : Prop :=
  length v' = 3 /\ Forall2 R (firstn 3 v) v'.
