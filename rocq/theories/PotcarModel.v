(** Model of parsevasp/potcar.py.  Loggers are not modelled.  The regular expressions are
    modelled as matchers; how each follows from Python's leftmost, backtracking search is
    said at its definition. *)
From Coq Require Import Ascii String List NArith ZArith Bool Lia.
From Verif Require Import PyBase PyNum UtilsModel LineModel OutcarModel ChgcarModel.
Import ListNotations.
Local Open Scope list_scope.
Local Open Scope bool_scope.

(** potcar.py:133-137: from the first start text to the first end text after it.  If the
    end text does not occur after the first start text, it does not occur after a later
    one; the search then gives None, and .group an AttributeError *)
Definition psctr_start : str := lit "parameters from PSCTR are:".
Definition psctr_end : str := lit "END of PSCTR-controll parameters".
Definition psctr_block (t : str) : res str :=
  match cut psctr_start t with
  | None => Exn AttributeError
  | Some (_, r) => match cut psctr_end r with
                   | None => Exn AttributeError
                   | Some (m, _) => Ok (psctr_start ++ m ++ psctr_end)
                   end
  end.

Definition not_space (c : ascii) : bool := negb (is_space c).
Definition is_eq (c : ascii) : bool := aeqb c "=".
(** potcar.py:140 (\S+)\s*= at the beginning of [l]: the key, and what follows the equals
    sign.  \S+ takes a whole run of non-blanks and then gives characters back: the whole
    run if an equals sign follows it (after blanks), else the run up to its last equals sign *)
Fixpoint last_eq (run : str) : option (str * str) :=
  match run with
  | [] => None
  | c :: r => match last_eq r with
              | Some (a, b) => Some (c :: a, b)
              | None => if is_eq c then Some ([], r) else None
              end
  end.
Definition key_here (l : str) : option (str * str) :=
  let (run, r) := span not_space l in
  match run with
  | [] => None
  | c :: run' =>
      match snd (span is_space r) with
      | e :: r' => if is_eq e then Some (run, r')
                   else match last_eq run' with Some (a, b) => Some (c :: a, b ++ r) | None => None end
      | [] => match last_eq run' with Some (a, b) => Some (c :: a, b ++ r) | None => None end
      end
  end.
(** potcar.py:140 \s*(.*?)(?=;|$), MULTILINE: blanks (also newlines) are skipped; the value
    extends to the next semicolon, newline or the end.  Some value is always found, so
    nothing is given back *)
Definition value_char (c : ascii) : bool := negb (aeqb c ";" || aeqb c nl).
Definition value_here (l : str) : str * str := span value_char (snd (span is_space l)).
(** re.findall: [skip] characters of a match are still to be passed over *)
Fixpoint entries (skip : nat) (t : str) : list (str * str) :=
  match t with
  | [] => []
  | c :: r =>
      match skip with
      | S k => entries k r
      | O => match key_here t with
             | None => entries 0 r
             | Some (key, l) => let (v, rest) := value_here l in (key, v) :: entries (length r - length rest) r
             end
      end
  end.

(** ** Conversions, potcar.py:106-132 *)
Inductive kind := KText | KFlag | KInt | KFloat | KFloats.
Definition parameters : list (string * kind) :=
  [("VRHFIN", KText); ("LEXCH", KText); ("TITEL", KText); ("LULTRA", KFlag); ("LCOR", KFlag); ("LPAW", KFlag);
   ("IUNSCR", KInt); ("NDATA", KInt); ("ICORE", KInt); ("EATOM", KFloat); ("RPACOR", KFloat); ("POMASS", KFloat);
   ("ZVAL", KFloat); ("RCORE", KFloat); ("RWIGS", KFloat); ("ENMAX", KFloat); ("ENMIN", KFloat); ("RCLOC", KFloat);
   ("EAUG", KFloat); ("DEXC", KFloat); ("RMAX", KFloat); ("RAUG", KFloat); ("RDEP", KFloat); ("RDEPT", KFloat); ("STEP", KFloats)]%string.
Definition kind_of (key : str) : option kind := dget key (map (fun p => (lit (fst p), snd p)) parameters).
Inductive pval := VText (s : str) | VFlag (b : bool) | VInt (z : Z) | VFloat (x : float) | VFloats (l : list float).

Definition opt_char (f : ascii -> bool) (l : str) : str * str :=
  match l with c :: r => if f c then ([c], r) else ([], l) | [] => ([], []) end.
Definition is_tf (c : ascii) : bool := aeqb c "T" || aeqb c "F" || aeqb c "t" || aeqb c "f".
(** 110-112 re.match(r'^\.?([TFtf])[A-Za-z]*\.?', val).group(1).lower() in ['t'] *)
Definition to_flag (v : str) : res bool :=
  match snd (opt_char (aeqb ".") v) with
  | c :: _ => if is_tf c then Ok (aeqb (lower1 c) "t") else Exn AttributeError
  | [] => Exn AttributeError
  end.
(** 113-115 int(re.match(r'^-?[0-9]+', val).group(0)) *)
Definition to_integer (v : str) : res Z :=
  let (s, r) := opt_char (aeqb "-") v in
  match fst (span is_digit r) with [] => Exn AttributeError | ds => to_int (s ++ ds) end.
(** 116-130 float(re.search(r'^-?\d*\.?\d*[eE]?-?\d*', val).group(0)): each part takes what
    it can, nothing is given back because the rest always matches *)
Definition number_prefix (v : str) : str :=
  let (a, r1) := opt_char (aeqb "-") v in
  let (b, r2) := span is_digit r1 in
  let (c, r3) := opt_char (aeqb ".") r2 in
  let (d, r4) := span is_digit r3 in
  let (e, r5) := opt_char (fun x => aeqb x "e" || aeqb x "E") r4 in
  let (f, r6) := opt_char (aeqb "-") r5 in
  a ++ b ++ c ++ d ++ e ++ f ++ fst (span is_digit r6).
(** str.isalpha (Latin-1 range) *)
Definition is_alpha (c : ascii) : bool :=
  let n := code c in
  ((65 <=? n) && (n <=? 90) || (97 <=? n) && (n <=? 122) || (n =? 170) || (n =? 181) || (n =? 186)
   || (192 <=? n) && (n <=? 214) || (216 <=? n) && (n <=? 246) || (248 <=? n))%N.
Definition isalpha (w : str) : bool := match w with [] => false | _ => forallb is_alpha w end.
(** re.split(r'\s+', text.strip()) *)
Definition blank_split (v : str) : list str := match split_ws v with [] => [[]] | ws => ws end.
Definition convert (k : kind) (v : str) : res pval :=
  match k with
  | KText => Ok (VText (strip v))
  | KFlag => let* b := to_flag v in Ok (VFlag b)
  | KInt => let* z := to_integer v in Ok (VInt z)
  | KFloat => let* x := to_float (number_prefix v) in Ok (VFloat x)
  | KFloats => let* l := mapM to_float (filter (fun w => negb (isalpha w)) (blank_split v)) in Ok (VFloats l)
  end.
(** 139-142 *)
Definition store (d : dict pval) (e : str * str) : res (dict pval) :=
  match kind_of (fst e) with
  | None => Ok d
  | Some k => let* x := convert k (snd e) in Ok (dset (fst e) x d)
  end.
Record potcar := Potcar { pt_metadata : dict pval; pt_symbol : str; pt_element : str }.
(** 93-149 _generate_metadata.  TITEL is always a text *)
Definition generate_metadata (t : str) : res potcar :=
  let* block := psctr_block t in
  let* d := foldM store (entries 0 block) [] in
  match dget (lit "TITEL") d with
  | None => Exn KeyError
  | Some (VText titel) =>
      let symbol := match nth_error (split_on sp titel) 1 with Some w => strip w | None => strip titel end in
      Ok (Potcar d symbol (fst (split_first "_" symbol)))
  | Some _ => Exn AttributeError
  end.
(** 71-91 *)
Definition potcar_init (path : source_path) (handler : source_handler) : res potcar :=
  if negb (is_some path) && negb (is_some handler) then Exn ValueError
  else let* t := read_text path handler in generate_metadata t.

(** 24-69 *)
Definition functional_tags : list (string * (string * string)) :=
  [("pe", ("PBE", "GGA")); ("91", ("PW91", "GGA")); ("rp", ("revPBE", "GGA")); ("am", ("AM05", "GGA")); ("ps", ("PBEsol", "GGA"));
   ("pw", ("PW86", "GGA")); ("lm", ("Langreth-Mehl-Hu", "GGA")); ("pb", ("Perdew-Becke", "GGA")); ("ca", ("Perdew-Zunger81", "LDA"));
   ("hl", ("Hedin-Lundquist", "LDA")); ("wi", ("Wigner Interpoloation", "LDA"))]%string.
Definition tags_of (lexch : str) : option (string * string) := dget (lower lexch) (map (fun p => (lit (fst p), snd p)) functional_tags).
(** 175-197 functional, functional_class: a missing LEXCH is None, which has no lower *)
Definition functional (p : potcar) : res (option string) :=
  match dget (lit "LEXCH") (pt_metadata p) with Some (VText s) => Ok (option_map fst (tags_of s)) | _ => Exn AttributeError end.
Definition functional_class (p : potcar) : res (option string) :=
  match dget (lit "LEXCH") (pt_metadata p) with Some (VText s) => Ok (option_map snd (tags_of s)) | _ => Exn AttributeError end.
(** 199-210 __getattr__, for names that are not attributes of the object *)
Definition attribute (p : potcar) (name : str) : res pval := of_option AttributeError (dget (upper name) (pt_metadata p)).
