(** What the header of a POTCAR says, stated on its text. *)
From Coq Require Import Ascii String List NArith ZArith Bool Lia.
From Verif Require Import PyBase PyNum ChgcarSpec.
Import ListNotations.
Local Open Scope list_scope.

(** [mid]: the text between the first 'parameters from PSCTR are:' and the next
    'END of PSCTR-controll parameters' *)
Definition psctr (t mid : str) : Prop :=
  exists before after rest, first_in (lit "parameters from PSCTR are:") t before after /\ first_in (lit "END of PSCTR-controll parameters") after mid rest.
Definition no_char (c : ascii) (s : str) : Prop := ~ In c s.
Definition no_eq : str -> Prop := no_char "=".
Definition blanks (s : str) : Prop := forall c, In c s -> is_space c = true.
Definition ends_blank (s : str) : Prop := exists r c, s = r ++ [c] /\ is_space c = true.
(** Fields 'KEY = value' in a text: the key is set off by a blank; the value is not empty, begins
    right after the blanks (on the same line) that follow the equals sign, and extends to the next semicolon
    or newline.  An equals sign in the value is allowed if a blank precedes the first one. *)
Definition is_key (k : str) : Prop := k <> [] /\ (forall c, In c k -> is_space c = false) /\ no_eq k /\ no_char ";" k.
Definition is_value (v : str) : Prop := (exists c r, v = c :: r /\ is_space c = false) /\ no_char ";" v /\ no_char nl v.
Inductive fields : str -> list (str * str) -> Prop :=
| no_field s : no_eq s -> fields s []
| one_field s key mid post v rest kvs : no_eq s -> ends_blank s -> is_key key -> blanks mid -> blanks post -> no_char nl post -> is_value v -> mid <> [] \/ no_eq v ->
    (exists c r, rest = c :: r /\ (c = ";"%char \/ c = nl)) -> fields rest kvs ->
    fields (s ++ key ++ mid ++ "="%char :: post ++ v ++ rest) ((key, v) :: kvs).
(** the last field with that key *)
Definition last_value (kvs : list (str * str)) (key v : str) : Prop :=
  exists before after, kvs = before ++ (key, v) :: after /\ forall v', ~ In (key, v') after.

(** The types of the documented parameters *)
Inductive ptype := PText | PFlag | PInt | PFloat | PFloats.
Definition documented (key : string) (ty : ptype) : Prop :=
  match ty with
  | PText => In key ["VRHFIN"; "LEXCH"; "TITEL"]
  | PFlag => In key ["LULTRA"; "LCOR"; "LPAW"]
  | PInt => In key ["IUNSCR"; "NDATA"; "ICORE"]
  | PFloat => In key ["EATOM"; "RPACOR"; "POMASS"; "ZVAL"; "RCORE"; "RWIGS"; "ENMAX"; "ENMIN"; "RCLOC"; "EAUG"; "DEXC"; "RMAX"; "RAUG"; "RDEP"; "RDEPT"]
  | PFloats => key = "STEP"
  end%string.
Definition digits (s : str) : Prop := forall c, In c s -> is_digit c = true.
(** an optional minus sign and digits *)
Definition int_text (s : str) : Prop := exists ds, ds <> [] /\ digits ds /\ (s = ds \/ s = "-"%char :: ds).
(** -12, -12., 12.5, .5, 12.5E-3, 12e3: without plus signs *)
Definition exponent_text (s : str) : Prop := s = [] \/ exists c i, s = c :: i /\ (c = "e" \/ c = "E")%char /\ int_text i.
Definition float_text (s : str) : Prop := exists sign a dot b e, s = sign ++ a ++ dot ++ b ++ e /\ (sign = [] \/ sign = ["-"%char]) /\ digits a /\ digits b /\
  (a <> [] \/ b <> []) /\ (dot = ["."%char] \/ (dot = [] /\ b = [])) /\ exponent_text e.
Definition sign_text (s : str) : Prop := s = [] \/ s = ["-"%char].
(** a mantissa: sign, digits, point, digits *)
Definition mantissa (s : str) : Prop := exists sign a dot b, s = sign ++ a ++ dot ++ b /\ sign_text sign /\ digits a /\ digits b /\ (a <> [] \/ b <> []) /\ (dot = ["."%char] \/ (dot = [] /\ b = [])).
(** no character of a number follows *)
Definition stops (s : str) : Prop := match s with [] => True | c :: _ => is_digit c = false /\ c <> "."%char /\ c <> "e"%char /\ c <> "E"%char /\ c <> "-"%char end.
Definition no_digit_first (s : str) : Prop := match s with [] => True | c :: _ => is_digit c = false end.
(** a word of letters *)
Definition letter (c : ascii) : Prop :=
  let n := code c in (65 <= n <= 90 \/ 97 <= n <= 122 \/ n = 170 \/ n = 181 \/ n = 186 \/ 192 <= n <= 214 \/ 216 <= n <= 246 \/ 248 <= n)%N.
Definition letters (w : str) : Prop := w <> [] /\ forall c, In c w -> letter c.
(** the numbers among the words *)
Inductive word_numbers : list str -> list float -> Prop :=
| wn_nil : word_numbers [] []
| wn_letters w ws xs : letters w -> word_numbers ws xs -> word_numbers (w :: ws) xs
| wn_number w x ws xs : ~ letters w -> parse_float w = Some x -> word_numbers ws xs -> word_numbers (w :: ws) (x :: xs).
(** values of the fields *)
Definition flag_value (v : str) (b : bool) : Prop :=
  exists c r, (v = c :: r \/ v = "."%char :: c :: r) /\ (((c = "T" \/ c = "t")%char /\ b = true) \/ ((c = "F" \/ c = "f")%char /\ b = false)).
Definition int_value (v : str) (z : Z) : Prop := exists tok rest, v = tok ++ rest /\ int_text tok /\ no_digit_first rest /\ parse_int tok = Some z.
(** the number at the beginning of the value *)
Definition float_value (v : str) (x : float) : Prop := exists tok rest, v = tok ++ rest /\ float_text tok /\ stops rest /\ parse_float tok = Some x.

(** ** Symbol, element, functional *)
(** the second of the words (separated by single spaces) of the title; the title itself if it is one word *)
Definition symbol_of (titel symbol : str) : Prop :=
  (exists a b r, titel = a ++ sp :: b ++ r /\ no_char sp a /\ no_char sp b /\ (r = [] \/ exists r', r = sp :: r') /\ symbol = strip b) \/
  (no_char sp titel /\ symbol = strip titel).
Definition element_of (symbol element : str) : Prop :=
  exists r, symbol = element ++ r /\ no_char "_" element /\ (r = [] \/ exists r', r = "_"%char :: r').
(** LEXCH codes, upper or lower case *)
Definition known_functionals : list (string * string * string) :=
  [("PE", "PBE", "GGA"); ("91", "PW91", "GGA"); ("RP", "revPBE", "GGA"); ("AM", "AM05", "GGA"); ("PS", "PBEsol", "GGA");
   ("PW", "PW86", "GGA"); ("LM", "Langreth-Mehl-Hu", "GGA"); ("PB", "Perdew-Becke", "GGA"); ("CA", "Perdew-Zunger81", "LDA");
   ("HL", "Hedin-Lundquist", "LDA"); ("WI", "Wigner Interpoloation", "LDA")]%string.
Definition same_code (s : str) (code : string) : Prop := upper s = lit code.
