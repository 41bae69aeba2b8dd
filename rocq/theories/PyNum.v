(** Python numbers: [int()] and [float()] grammars, [str()] of numbers,
    IEEE binary64 values and the fixed-point format [{:w.pf}].

    Trusted reading of CPython semantics (no /repo code in this file). *)
From Coq Require Import Ascii String List NArith ZArith Bool Lia.
From Verif Require Import PyBase.
Import ListNotations.
Local Open Scope list_scope.
Local Open Scope bool_scope.

(** ** Decimal digits *)
Definition digit_val (c : ascii) : N := (code c - 48)%N.
Definition digit_char (n : N) : ascii := chr (n + 48).

(** value of a digit string, most significant first *)
Definition digits_val (l : str) : N := fold_left (fun a c => (10 * a + digit_val c)%N) l 0%N.

(** decimal digits of n; fuel is the number of bits plus one *)
Fixpoint digits_fuel (fuel : nat) (n : N) : str :=
  match fuel with
  | O => []
  | S f => if (n <? 10)%N then [digit_char n]
           else digits_fuel f (n / 10) ++ [digit_char (n mod 10)]
  end.
Definition digits_of (n : N) : str := digits_fuel (S (N.to_nat (N.size n))) n.

(** str(z) for an int *)
Definition str_of_Z (z : Z) : str :=
  match z with
  | Zneg p => "-"%char :: digits_of (Npos p)
  | _ => digits_of (Z.to_N z)
  end.

(** ** Number syntax *)

(** Underscores are allowed only between two digits; removes them. *)
Fixpoint strip_us (prev_digit : bool) (l : str) : option str :=
  match l with
  | [] => Some []
  | c :: r =>
      if aeqb c "_"%char then
        if prev_digit then
          match r with
          | c' :: _ => if is_digit c' then strip_us false r else None
          | [] => None
          end
        else None
      else option_map (cons c) (strip_us (is_digit c) r)
  end.

Definition take_sign (l : str) : bool * str :=
  match l with
  | c :: r => if aeqb c "-"%char then (true, r)
              else if aeqb c "+"%char then (false, r) else (false, l)
  | [] => (false, l)
  end.

Fixpoint span_digits (l : str) : str * str :=
  match l with
  | c :: r => if is_digit c then let (a, b) := span_digits r in (c :: a, b) else ([], l)
  | [] => ([], [])
  end.

Definition zsigned (neg : bool) (n : N) : Z := if neg then Z.opp (Z.of_N n) else Z.of_N n.

(** int(s), base 10.  [None] is ValueError.  (CPython's limit of 4300 digits is
    not modelled.) *)
Definition parse_int (s : str) : option Z :=
  match strip_us false (strip s) with
  | None => None
  | Some t =>
      let (neg, d) := take_sign t in
      match span_digits d with
      | ((_ :: _) as ds, []) => Some (zsigned neg (digits_val ds))
      | _ => None
      end
  end.

(** A decimal literal: sign, mantissa, power of ten; or a special value. *)
Inductive dec :=
| DFin (neg : bool) (m : N) (e : Z)
| DInf (neg : bool)
| DNan.

(** optional exponent part; must consume everything *)
Definition parse_exp (l : str) : option Z :=
  match l with
  | [] => Some 0%Z
  | c :: r =>
      if aeqb c "e"%char || aeqb c "E"%char then
        let (neg, d) := take_sign r in
        match span_digits d with
        | ((_ :: _) as ds, []) => Some (zsigned neg (digits_val ds))
        | _ => None
        end
      else None
  end.

Definition parse_unsigned (neg : bool) (d : str) : option dec :=
  let ld := lower d in
  if seqb ld (lit "inf") || seqb ld (lit "infinity") then Some (DInf neg)
  else if seqb ld (lit "nan") then Some DNan
  else
    let (ip, r1) := span_digits d in
    let (fp, r2) :=
      match r1 with
      | c :: r => if aeqb c "."%char then span_digits r else ([], r1)
      | [] => ([], [])
      end in
    match ip ++ fp with
    | [] => None
    | ds => match parse_exp r2 with
            | Some e => Some (DFin neg (digits_val ds) (e - Z.of_nat (length fp)))
            | None => None
            end
    end.

(** The decimal value denoted by a float literal; [None] is ValueError. *)
Definition parse_dec (s : str) : option dec :=
  match strip_us false (strip s) with
  | None => None
  | Some t => let (neg, d) := take_sign t in parse_unsigned neg d
  end.

(** ** binary64 *)
(** A float: [FFin neg m e] has value (-1)^neg * m * 2^e, with m odd, or m = 0
    and e = 0 (signed zero). *)
Inductive float :=
| FFin (neg : bool) (m : N) (e : Z)
| FInf (neg : bool)
| FNan.

(** divide out powers of two *)
Fixpoint norm2_pos (p : positive) (e : Z) : N * Z :=
  match p with
  | xO p' => norm2_pos p' (e + 1)
  | _ => (Npos p, e)
  end.
Definition norm2 (m : N) (e : Z) : N * Z :=
  match m with N0 => (0%N, 0%Z) | Npos p => norm2_pos p e end.

(** round half even of the quotient a/b *)
Definition div_rne (a b : N) : N :=
  let q := (a / b)%N in
  let r := (a mod b)%N in
  match (2 * r ?= b)%N with
  | Lt => q
  | Gt => (q + 1)%N
  | Eq => if N.even q then q else (q + 1)%N
  end.

Definition pow10 (e : Z) : N := (10 ^ Z.to_N e)%N.
Definition pow2 (e : Z) : N := (2 ^ Z.to_N e)%N.

(** floor (log2 (a/b)) for positive a and b *)
Definition flog2 (a b : N) : Z :=
  let k := (Z.of_N (N.log2 a) - Z.of_N (N.log2 b))%Z in
  if (b * pow2 k <=? a * pow2 (- k))%N then k else (k - 1)%Z.

(** correctly rounded (nearest, ties to even) binary64 of (-1)^neg * a / b *)
Definition round64 (neg : bool) (a b : N) : float :=
  if (a =? 0)%N then FFin neg 0 0
  else
    let e := Z.max (flog2 a b - 52) (-1074) in
    let q := div_rne (a * pow2 (- e)) (b * pow2 e) in
    let (m, e') := norm2 q e in
    if (m =? 0)%N then FFin neg 0 0
    else if (2 ^ 1024 <=? q * pow2 e)%N then FInf neg
    else FFin neg m e'.

Definition float_of_dec (d : dec) : float :=
  match d with
  | DFin neg m e => round64 neg (m * pow10 e) (pow10 (- e))
  | DInf neg => FInf neg
  | DNan => FNan
  end.

(** float(s); [None] is ValueError *)
Definition parse_float (s : str) : option float := option_map float_of_dec (parse_dec s).

Definition float_of_Z (z : Z) : float :=
  round64 (z <? 0)%Z (Z.abs_N z) 1.

(** ** repr(float): shortest decimal that reads back as the same float *)
Definition dec_numer (m : N) (e : Z) : N := (m * pow10 e)%N.

(** the nearest decimal with n significant digits to a/b (k = decimal exponent
    such that 10^(k-1) <= a/b < 10^k) *)
Definition float_num (m : N) (e : Z) : N := (m * pow2 e)%N.
Definition float_den (e : Z) : N := pow2 (- e).

(** floor(log10(a/b)) + 1 from the digit counts *)
Definition ndigits (n : N) : Z := Z.of_nat (length (digits_of n)).
Definition decpt (a b : N) : Z :=
  let k := (ndigits a - ndigits b)%Z in
  (* 10^(k-1) < a/b < 10^(k+1) *)
  if (b * pow10 k <=? a * pow10 (- k))%N then (k + 1)%Z else k.

Definition dec_n (n : Z) (neg : bool) (a b : N) : dec :=
  let q := (decpt a b - n)%Z in    (* last kept power of ten *)
  DFin neg (div_rne (a * pow10 (- q)) (b * pow10 q)) q.

(** a float as an exact decimal: m * 2^e = m * 5^(-e) * 10^e when e < 0 *)
Definition dec_exact (neg : bool) (m : N) (e : Z) : dec :=
  if (0 <=? e)%Z then DFin neg (m * pow2 e) 0
  else DFin neg (m * 5 ^ Z.to_N (- e)) e.

Definition feqb (x y : float) : bool :=
  match x, y with
  | FFin n m e, FFin n' m' e' => eqb n n' && (m =? m')%N && (e =? e')%Z
  | FInf n, FInf n' => eqb n n'
  | FNan, FNan => true
  | _, _ => false
  end.

(** smallest n in the list whose n-digit rounding reads back as x; the exact
    expansion otherwise.  (CPython computes the shortest such decimal, closest to
    x; 17 digits always suffice, so the last branch is not taken for n = 1..17.
    In the rare case where x is a power of two and only a non-nearest n-digit
    decimal reads back, CPython could print one digit less.) *)
Fixpoint shortest (ns : list Z) (neg : bool) (m : N) (e : Z) : dec :=
  match ns with
  | [] => dec_exact neg m e
  | n :: r =>
      let d := dec_n n neg (float_num m e) (float_den e) in
      if feqb (float_of_dec d) (FFin neg m e) then d else shortest r neg m e
  end.
Definition repr_digits : list Z :=
  [1;2;3;4;5;6;7;8;9;10;11;12;13;14;15;16;17]%Z.

(** strip trailing zero digits *)
Fixpoint drop_zeros (l : str) : str :=   (* on the reversed digit string *)
  match l with
  | c :: r => if aeqb c "0"%char then drop_zeros r else l
  | [] => []
  end.
Definition rzeros (l : str) : str := rev (drop_zeros (rev l)).

Definition zeros (n : nat) : str := repeat "0"%char n.

(** Exponent digits: at least two, explicit sign. *)
Definition exp_str (z : Z) : str :=
  let d := digits_of (Z.abs_N z) in
  (if (z <? 0)%Z then "-"%char else "+"%char) ::
  (if (length d <? 2)%nat then "0"%char :: d else d).

(** layout of repr(float) from significant digits ds (no trailing zero, non
    empty) and the position of the decimal point *)
Definition repr_layout (ds : str) (pt : Z) : str :=
  if ((pt <=? -4) || (16 <? pt))%Z then
    match ds with
    | [] => []
    | d :: r => d :: (match r with [] => [] | _ => "."%char :: r end)
                ++ "e"%char :: exp_str (pt - 1)
    end
  else if (pt <=? 0)%Z then
    lit "0." ++ zeros (Z.to_nat (- pt)) ++ ds
  else if (Z.of_nat (length ds) <=? pt)%Z then
    ds ++ zeros (Z.to_nat pt - length ds) ++ lit ".0"
  else
    firstn (Z.to_nat pt) ds ++ "."%char :: skipn (Z.to_nat pt) ds.

Definition sign_str (neg : bool) : str := if neg then lit "-" else [].

Definition repr_dec (neg : bool) (m : N) (e : Z) : str :=
  if (m =? 0)%N then sign_str neg ++ lit "0.0"
  else let ds := digits_of m in
       sign_str neg ++ repr_layout (rzeros ds) (Z.of_nat (length ds) + e).

(** str(x) = repr(x) *)
Definition repr_float (x : float) : str :=
  match x with
  | FFin neg m e =>
      if (m =? 0)%N then sign_str neg ++ lit "0.0"
      else match shortest repr_digits neg m e with
           | DFin n m' e' => repr_dec n m' e'
           | _ => []
           end
  | FInf neg => sign_str neg ++ lit "inf"
  | FNan => lit "nan"
  end.

(** ** Fixed-point formatting *)
Definition pad_left (w : nat) (s : str) : str := repeat sp (w - length s) ++ s.

(** digits of the integer q (in units of 10^-p) with the point inserted *)
Definition fixed_digits (p : nat) (q : N) : str :=
  let ds := digits_of q in
  let ds := zeros (S p - length ds) ++ ds in
  let k := (length ds - p)%nat in
  match p with
  | O => ds
  | _ => firstn k ds ++ "."%char :: skipn k ds
  end.

(** '{:.pf}' of (-1)^neg * a / b *)
Definition fixed_ratio (p : nat) (neg : bool) (a b : N) : str :=
  sign_str neg ++ fixed_digits p (div_rne (a * 10 ^ N.of_nat p) b).

(** '{:w.pf}'.format(x) *)
Definition fmt_f (w p : nat) (x : float) : str :=
  pad_left w
    (match x with
     | FFin neg m e => fixed_ratio p neg (float_num m e) (float_den e)
     | FInf neg => sign_str neg ++ lit "inf"
     | FNan => lit "nan"
     end).

(** '{:wd}'.format(z) *)
Definition fmt_d (w : nat) (z : Z) : str := pad_left w (str_of_Z z).
