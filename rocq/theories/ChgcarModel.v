(** Model of parsevasp/chgcar.py.  Loggers are not modelled.

    The model is written over a [cell_arith]: a type of numbers with what the code does
    with them.  Two instances are used: IEEE doubles with an arbitrary volume function
    (numpy.dot and numpy.cross round in a way that depends on the installed library) and
    exact rationals. *)
From Coq Require Import Ascii String List NArith ZArith QArith Bool Lia.
From Verif Require Import PyBase PyNum UtilsModel LineModel EigenvalModel PoscarModel ArithModel.
Import ListNotations.
Local Open Scope list_scope.
Local Open Scope bool_scope.

(** [cparse]: float(token); [cvolume a b c]: np.dot(a, np.cross(b, c)) for vectors of length three;
    [cdiv]: division of an array element (never an exception) *)
Record cell_arith := CellArith {
  cnum : Type;
  cparse : str -> option cnum;
  cmul : cnum -> cnum -> cnum;
  cdiv : cnum -> cnum -> cnum;
  cvolume : list cnum -> list cnum -> list cnum -> cnum }.

(** Python/numpy float division of array elements: correctly rounded; x / 0 is an
    infinity or nan.  No /repo code *)
Definition fdiv (x y : float) : float :=
  match x, y with
  | FNan, _ | _, FNan => FNan
  | FInf _, FInf _ => FNan
  | FInf a, FFin b _ _ => FInf (xorb a b)
  | FFin a _ _, FInf b => FFin (xorb a b) 0 0
  | FFin a m e, FFin b n f =>
      if (n =? 0)%N then (if (m =? 0)%N then FNan else FInf (xorb a b))
      else round64 (xorb a b) (float_num m e * float_den f) (float_den e * float_num n f)
  end.
Definition cell64 (volume : list float -> list float -> list float -> float) : cell_arith :=
  CellArith float parse_float fmul fdiv volume.
Definition qvolume (a b c : list Q) : Q :=
  match a, b, c with
  | [a1; a2; a3], [b1; b2; b3], [c1; c2; c3] =>
      (a1 * (b2 * c3 - b3 * c2) + a2 * (b3 * c1 - b1 * c3) + a3 * (b1 * c2 - b2 * c1))%Q
  | _, _, _ => 0%Q
  end.
Definition cell_exact : cell_arith := CellArith Q qparse Qmult Qdiv qvolume.

(** str.split(sep, 1): [None] if there is no separator *)
Fixpoint cut (sep t : str) : option (str * str) :=
  if prefixb sep t then Some ([], skipn (length sep) t)
  else match t with
       | [] => None
       | c :: r => match cut sep r with Some (a, b) => Some (c :: a, b) | None => None end
       end.
(** str.split(sep) for a separator that is not empty: [skip] characters of a separator
    are still to be passed over *)
Fixpoint split_str (skip : nat) (sep t : str) : list str :=
  match t with
  | [] => [[]]
  | c :: r =>
      match skip with
      | S k => split_str k sep r
      | O => if prefixb sep t then [] :: split_str (length sep - 1) sep r
             else match split_str 0 sep r with [] => [[c]] | w :: ws => (c :: w) :: ws end
      end
  end.

(** utils.py:41-60 read_from_file with lines=False *)
Definition read_text (path : source_path) (handler : source_handler) : res str :=
  match handler with
  | Some txt => Ok txt
  | None => match path with Some (Some txt) => Ok (translate_newlines txt) | _ => Exn (SysExit 14) end
  end.

Section Model.
Variable A : cell_arith.

(** The longest prefix, of at most [n] characters, that is a number for the C library
    (no underscores), and what follows *)
Definition cnumber (w : str) : option (cnum A) := if existsb (aeqb "_") w then None else cparse A w.
Fixpoint strtod (n : nat) (w : str) : option (cnum A * str) :=
  match cnumber (firstn n w) with
  | Some x => Some (x, skipn n w)
  | None => match n with O => None | S n' => strtod n' w end
  end.
(** the numbers of np.fromstring(text, dtype=float, sep=' '): reading stops silently
    (with a DeprecationWarning) at the first word that is not a number; if such a word
    begins with a number, that one is still read *)
Fixpoint leading_numbers (ws : list str) : list (cnum A) :=
  match ws with
  | [] => []
  | w :: r => match strtod (length w) w with
              | Some (x, []) => x :: leading_numbers r
              | Some (x, _) => [x]
              | None => []
              end
  end.
(** white space of str.split() that is not white space for the C library; 'nan(...)' *)
Definition odd_char (c : ascii) : bool := is_space c && negb ((9 <=? code c) && (code c <=? 13) || (code c =? 32))%N || aeqb c "(".
Definition fromstring (t : str) : res (list (cnum A)) :=
  if existsb odd_char t then Exn OutOfModel else Ok (leading_numbers (split_ws t)).

(** array.reshape([n1, n2, n3]): the last index runs fastest *)
Fixpoint chunks {B} (k n : nat) (l : list B) : list (list B) :=
  match k with O => [] | S k' => firstn n l :: chunks k' n (skipn n l) end.
(** shapes other than three non-negative integers are outside the model *)
Definition reshape {B} (shape : list Z) (l : list B) : res (list (list (list B))) :=
  match shape with
  | [a; b; c] =>
      if (a <? 0)%Z || (b <? 0)%Z || (c <? 0)%Z then Exn OutOfModel
      else let n1 := Z.to_nat a in let n2 := Z.to_nat b in let n3 := Z.to_nat c in
           if (Z.of_nat (length l) =? a * b * c)%Z then Ok (map (chunks n2 n3) (chunks n1 (n2 * n3) l)) else Exn ValueError
  | _ => Exn OutOfModel
  end.
Definition occupancies : str := lit "augmentation occupancies".
(** chgcar.py:91-92, 95-97, ...: one data set *)
Definition dataset (ngf : list Z) (volume : cnum A) (text : str) : res (list (list (list (cnum A)))) :=
  let* xs := fromstring (match cut occupancies text with Some (a, _) => a | None => text end) in
  let* a := reshape ngf xs in
  Ok (map (map (map (fun x => cdiv A x volume))) a).

Inductive magnetization := MagNone | MagOne (m : list (list (list (cnum A)))) | MagXYZ (x y z : list (list (list (cnum A)))).
Record chgcar := Chgcar { ch_total : list (list (list (cnum A))); ch_magnetization : magnetization }.

(** chgcar.py:70-74: a scaled lattice vector *)
Definition lattice_row (scaling : cnum A) (line : str) : res (list (cnum A)) :=
  let* xs := mapM (fun t => of_option ValueError (cparse A t)) (split_ws line) in
  broadcast 3 (map (cmul A scaling) xs).
(** chgcar.py:56-109 _from_file on the text *)
Definition from_text (content : str) : res chgcar :=
  let* hb := of_option IndexError (cut [nl; nl] content) in                     (* 65-68 *)
  let header := split_on nl (fst hb) in
  let* l1 := py_nth header 1 in
  let* scaling := of_option ValueError (cparse A l1) in
  let* l2 := py_nth header 2 in let* v0 := lattice_row scaling l2 in
  let* l3 := py_nth header 3 in let* v1 := lattice_row scaling l3 in
  let* l4 := py_nth header 4 in let* v2 := lattice_row scaling l4 in
  let volume := cvolume A v0 v1 v2 in                                           (* 78 *)
  let* gb := of_option IndexError (cut [nl] (snd hb)) in                        (* 80-82 *)
  let g := fst gb in
  let* ngf := mapM to_int (split_ws g) in
  let ngf := rev ngf in                                                         (* 86 *)
  let* sets := match g with [] => Exn ValueError | _ => Ok (split_str 0 g (snd gb)) end in   (* 88 *)
  let* d0 := py_nth sets 0 in let* total := dataset ngf volume d0 in            (* 91 *)
  match sets with
  | [_; d1] => let* m := dataset ngf volume d1 in Ok (Chgcar total (MagOne m))  (* 93-97 *)
  | [_; d1; d2; d3] =>                                                          (* 98-109 *)
      let* mx := dataset ngf volume d1 in let* my := dataset ngf volume d2 in let* mz := dataset ngf volume d3 in
      Ok (Chgcar total (MagXYZ mx my mz))
  | _ => Ok (Chgcar total MagNone)
  end.
(** chgcar.py:14-54 *)
Definition chgcar_init (path : source_path) (handler : source_handler) : res chgcar :=
  if negb (is_some path) && negb (is_some handler) then Exn (SysExit 10)
  else let* t := read_text path handler in from_text t.
End Model.
Arguments MagNone {A}. Arguments MagOne {A}. Arguments MagXYZ {A}. Arguments Chgcar {A}. Arguments ch_total {A}. Arguments ch_magnetization {A}.
