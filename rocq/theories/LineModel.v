(** Model of utils.line_to_type (utils.py:361-386), of Python indexing and slicing with
    integers, and of comparisons and truncations of floats. *)
From Coq Require Import Ascii String List NArith ZArith Bool Lia.
From Verif Require Import PyBase PyNum UtilsModel.
Import ListNotations.
Local Open Scope list_scope.

(** a line converted word by word: its only word, or the list of all words (also when
    there are none) *)
Inductive line_value (A : Type) := One (a : A) | Many (l : list A).
Arguments One {A}. Arguments Many {A}.
(** utils.py:375-386 on a string, no_split=False *)
Definition line_to_type {A} (conv : str -> res A) (line : str) : res (line_value A) :=
  let* l := mapM conv (split_ws line) in Ok (match l with [a] => One a | _ => Many l end).
(** utils.py:382-385 on a string, d_type=str, no_split=True (a text of one character is
    its own first item) *)
Definition line_text (line : str) : str := strip line.

Definition to_int (t : str) : res Z := of_option ValueError (parse_int t).
Definition to_float (t : str) : res float := of_option ValueError (parse_float t).
Definition to_str (t : str) : res str := Ok t.

(** a, b, ... = value: not iterable is a TypeError, the wrong number a ValueError *)
Definition unpack {A} (n : nat) (v : line_value A) : res (list A) :=
  match v with
  | One _ => Exn TypeError
  | Many l => if Nat.eqb (length l) n then Ok l else Exn ValueError
  end.
(** len(value) *)
Definition len {A} (v : line_value A) : res nat := match v with One _ => Exn TypeError | Many l => Ok (length l) end.
(** value.startswith(('c', 'C')): a list has no such method *)
Definition starts_with_c (v : line_value str) : res bool :=
  match v with Many _ => Exn AttributeError | One [] => Ok false | One (c :: _) => Ok (aeqb c "c" || aeqb c "C")%bool end.

(** l[i], l[:i], l[i:j] for integers (negative ones count from the end) *)
Definition from_end {A} (l : list A) (i : Z) : Z := if (i <? 0)%Z then (Z.of_nat (length l) + i)%Z else i.
Definition py_get {A} (l : list A) (i : Z) : res A :=
  let j := from_end l i in if (j <? 0)%Z then Exn IndexError else of_option IndexError (nth_error l (Z.to_nat j)).
Definition py_upto {A} (l : list A) (i : Z) : list A := firstn (Z.to_nat (from_end l i)) l.
Definition py_slice {A} (l : list A) (i j : Z) : list A :=
  let a := Z.to_nat (from_end l i) in let b := Z.to_nat (from_end l j) in firstn (b - a) (skipn a l).

(** x == y on floats *)
Definition float_eq (x y : float) : bool :=
  match x, y with
  | FFin n m e, FFin n' m' e' => ((m =? m')%N && (e =? e')%Z && (eqb n n' || (m =? 0)%N))%bool
  | FInf n, FInf n' => eqb n n'
  | _, _ => false
  end.
(** l == l' on lists of floats *)
Fixpoint floats_eq (l l' : list float) : bool :=
  match l, l' with
  | [], [] => true
  | x :: r, y :: r' => (float_eq x y && floats_eq r r')%bool
  | _, _ => false
  end.
(** int(x): towards zero *)
Definition int_of_float (x : float) : res Z :=
  match x with
  | FFin neg m e => let n := if (0 <=? e)%Z then (m * pow2 e)%N else (m / pow2 (- e))%N in Ok (zsigned neg n)
  | FInf _ => Exn OverflowErr
  | FNan => Exn ValueError
  end.
