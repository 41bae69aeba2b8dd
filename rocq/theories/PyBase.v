(** Foundations: Python evaluation results, characters and strings.

    Trusted reading of CPython semantics (no /repo code in this file):
    - [str] models Python [str] values whose code points are < 256;
    - [is_space] is [str.isspace] on single characters, the separator set of
      [str.split()] and [str.strip()] (CPython [_PyUnicode_IsWhitespace]);
    - [is_break] is the set of line boundaries of [str.splitlines]. *)
From Coq Require Import Ascii String List NArith ZArith Bool Lia Arith.
Import ListNotations.
Local Open Scope list_scope.
Local Open Scope bool_scope.

(** ** Results of evaluating Python code *)
Inductive exn : Type :=
| SysExit (code : Z)          (* sys.exit(code) *)
| ValueError | IndexError | KeyError | TypeError | AttributeError
| NotImplemented | LinAlgError | UnboundLocal | ZeroDivision
| OverflowErr                 (* OverflowError *)
| ReError                     (* re.error *)
| OutOfModel.                 (* behaviour outside the modelled fragment *)

Inductive res (A : Type) : Type :=
| Ok (a : A)
| Exn (e : exn).
Arguments Ok {A} a.
Arguments Exn {A} e.

Definition bind {A B} (r : res A) (f : A -> res B) : res B :=
  match r with Ok a => f a | Exn e => Exn e end.

Notation "'let*' x ':=' r 'in' k" := (bind r (fun x => k))
  (at level 200, x pattern, r at level 100, k at level 200, right associativity).

(** [map] with exceptions, left to right (a Python list comprehension). *)
Fixpoint mapM {A B} (f : A -> res B) (l : list A) : res (list B) :=
  match l with
  | [] => Ok []
  | a :: r => let* b := f a in let* bs := mapM f r in Ok (b :: bs)
  end.

(** A [for] loop threading a state. *)
Fixpoint foldM {A S} (f : S -> A -> res S) (l : list A) (s : S) : res S :=
  match l with
  | [] => Ok s
  | a :: r => let* s' := f s a in foldM f r s'
  end.

Definition of_option {A} (e : exn) (o : option A) : res A :=
  match o with Some a => Ok a | None => Exn e end.

(** [l[i]] for a non-negative literal index. *)
Definition py_nth {A} (l : list A) (i : nat) : res A := of_option IndexError (nth_error l i).

(** ** Strings *)
Definition str := list ascii.
Definition lit (x : string) : str := list_ascii_of_string x.
Definition code (c : ascii) : N := N_of_ascii c.
Definition chr (n : N) : ascii := ascii_of_N n.

Definition aeqb (a b : ascii) : bool := Ascii.eqb a b.

Fixpoint seqb (a b : str) : bool :=
  match a, b with
  | [], [] => true
  | x :: a', y :: b' => aeqb x y && seqb a' b'
  | _, _ => false
  end.

Definition smem (x : str) (l : list str) : bool := existsb (seqb x) l.

Definition nl : ascii := chr 10.
Definition cr : ascii := chr 13.
Definition sp : ascii := chr 32.

(** str.isspace on one character (Latin-1 range). *)
Definition is_space (c : ascii) : bool :=
  let n := code c in
  ((9 <=? n) && (n <=? 13) || (28 <=? n) && (n <=? 32) || (n =? 133) || (n =? 160))%N.

(** line boundaries of str.splitlines (Latin-1 range) *)
Definition is_break (c : ascii) : bool :=
  let n := code c in
  ((10 <=? n) && (n <=? 13) || (28 <=? n) && (n <=? 30) || (n =? 133))%N.

Definition is_digit (c : ascii) : bool := let n := code c in ((48 <=? n) && (n <=? 57))%N.
Definition is_ascii (c : ascii) : bool := (code c <? 128)%N.

(** str.lower on one character: exact for Latin-1. *)
Definition lower1 (c : ascii) : ascii :=
  let n := code c in
  if ((65 <=? n) && (n <=? 90))%N then chr (n + 32)
  else if ((192 <=? n) && (n <=? 222) && negb (n =? 215))%N then chr (n + 32) else c.
(** str.upper on one character: exact except for the three characters micro sign
    (181), sharp s (223) and y diaeresis (255), whose upper-case leaves Latin-1
    (or is two characters); these are left unchanged here. *)
Definition upper1 (c : ascii) : ascii :=
  let n := code c in
  if ((97 <=? n) && (n <=? 122))%N then chr (n - 32)
  else if ((224 <=? n) && (n <=? 254) && negb (n =? 247))%N then chr (n - 32) else c.
Definition lower (s : str) : str := map lower1 s.
Definition upper (s : str) : str := map upper1 s.

(** str.split(): maximal runs of non-blank characters. *)
Fixpoint split_ws (l : str) : list str :=
  match l with
  | [] => []
  | c :: r =>
      if is_space c then split_ws r
      else match r with
           | [] => [[c]]
           | c' :: _ =>
               if is_space c' then [c] :: split_ws r
               else match split_ws r with
                    | [] => [[c]]
                    | w :: ws => (c :: w) :: ws
                    end
           end
  end.

(** str.split(d) for a one-character separator. *)
Fixpoint split_on (d : ascii) (l : str) : list str :=
  match l with
  | [] => [[]]
  | c :: r =>
      if aeqb c d then [] :: split_on d r
      else match split_on d r with
           | [] => [[c]]
           | w :: ws => (c :: w) :: ws
           end
  end.

(** str.split(d, 1): text before the first [d], and the rest if there is one. *)
Fixpoint split_first (d : ascii) (l : str) : str * option str :=
  match l with
  | [] => ([], None)
  | c :: r => if aeqb c d then ([], Some r)
              else let (a, b) := split_first d r in (c :: a, b)
  end.

Fixpoint lstrip (l : str) : str :=
  match l with
  | [] => []
  | c :: r => if is_space c then lstrip r else l
  end.
Definition rstrip (l : str) : str := rev (lstrip (rev l)).
Definition strip (l : str) : str := rstrip (lstrip l).

(** str.join *)
Fixpoint join (sep : str) (l : list str) : str :=
  match l with
  | [] => []
  | [x] => x
  | x :: r => x ++ sep ++ join sep r
  end.

(** [p] is a prefix of [l]: l.startswith(p) *)
Fixpoint prefixb (p l : str) : bool :=
  match p, l with
  | [], _ => true
  | x :: p', y :: l' => aeqb x y && prefixb p' l'
  | _ :: _, [] => false
  end.

(** [p in l] *)
Fixpoint substrb (p l : str) : bool :=
  prefixb p l || match l with [] => false | _ :: r => substrb p r end.

Definition charb (c : ascii) (l : str) : bool := existsb (aeqb c) l.
Fixpoint count_char (c : ascii) (l : str) : nat :=
  match l with [] => 0 | x :: r => (if aeqb x c then 1 else 0) + count_char c r end.

(** str.splitlines(): no trailing empty line; \r\n is one boundary. *)
Fixpoint splitlines (l : str) : list str :=
  match l with
  | [] => []
  | c :: r =>
      if is_break c then
        [] :: (match r with
               | c' :: r' => if aeqb c cr && aeqb c' nl then splitlines r' else splitlines r
               | [] => []
               end)
      else match r with
           | [] => [[c]]
           | _ => match splitlines r with
                  | [] => [[c]]
                  | w :: ws => (c :: w) :: ws
                  end
           end
  end.

(** file.readlines() on text whose newlines are already translated: every line
    keeps its terminating newline. *)
Fixpoint readlines (l : str) : list str :=
  match l with
  | [] => []
  | c :: r =>
      if aeqb c nl then [c] :: readlines r
      else match readlines r with
           | [] => [[c]]
           | w :: ws => (c :: w) :: ws
           end
  end.

(** Universal newline translation done by a text-mode reader. *)
Fixpoint translate_newlines (l : str) : str :=
  match l with
  | [] => []
  | c :: r => if aeqb c cr then
                nl :: (match r with
                       | c' :: r' => if aeqb c' nl then translate_newlines r' else translate_newlines r
                       | [] => []
                       end)
              else c :: translate_newlines r
  end.

(** Comparison of Python strings (code point order). *)
Fixpoint sleb (a b : str) : bool :=
  match a, b with
  | [], _ => true
  | _ :: _, [] => false
  | x :: a', y :: b' =>
      if (code x <? code y)%N then true
      else if (code y <? code x)%N then false else sleb a' b'
  end.

Definition sltb (a b : str) : bool := sleb a b && negb (seqb a b).

(** sorted(list of str) *)
Fixpoint sinsert (x : str) (l : list str) : list str :=
  match l with
  | [] => [x]
  | y :: r => if sleb x y then x :: l else y :: sinsert x r
  end.
Fixpoint ssort (l : list str) : list str :=
  match l with [] => [] | x :: r => sinsert x (ssort r) end.

(** ** Python dictionaries with string keys: insertion ordered *)
Definition dict (V : Type) := list (str * V).

Fixpoint dget {V} (k : str) (d : dict V) : option V :=
  match d with
  | [] => None
  | (k', v) :: r => if seqb k k' then Some v else dget k r
  end.
(** d[k] = v : replaces in place, or appends *)
Fixpoint dset {V} (k : str) (v : V) (d : dict V) : dict V :=
  match d with
  | [] => [(k, v)]
  | (k', v') :: r => if seqb k k' then (k', v) :: r else (k', v') :: dset k v r
  end.
(** del d[k] (no effect when absent) *)
Fixpoint ddel {V} (k : str) (d : dict V) : dict V :=
  match d with
  | [] => []
  | (k', v') :: r => if seqb k k' then r else (k', v') :: ddel k r
  end.
Definition dkeys {V} (d : dict V) : list str := map fst d.
Definition dhas {V} (k : str) (d : dict V) : bool :=
  match dget k d with Some _ => true | None => false end.

Arguments aeqb : simpl never.
Arguments is_space : simpl never.
Arguments is_break : simpl never.
Arguments is_digit : simpl never.
Arguments code : simpl never.
Arguments chr : simpl never.
Arguments lower1 : simpl never.
Arguments upper1 : simpl never.
Arguments nl : simpl never.
Arguments cr : simpl never.
Arguments sp : simpl never.
