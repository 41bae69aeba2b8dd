(** Specification vocabulary for INCAR, independent of the parser model. *)
From Coq Require Import Ascii String List NArith ZArith Bool Lia Arith Permutation Sorted.
From Verif Require Import PyBase PyNum IncarModel.
Import ListNotations.
Local Open Scope list_scope.
Local Open Scope bool_scope.

(** A text made of complete lines. *)
Definition unlines (ls : list str) : str := concat (map (fun l => l ++ [nl]) ls).

(** no line boundary inside *)
Definition one_line (l : str) : Prop := forall c, In c l -> is_break c = false.

(** a blank line, or one whose first visible character is '#' *)
Definition inert_line (l : str) : Prop :=
  one_line l /\ ((forall c, In c l -> is_space c = true) \/
                 exists p q, l = p ++ "#"%char :: q /\ forall c, In c p -> is_space c = true).

(** A canonical tag: one non-empty blank-free lower-case word. *)
Definition canonical_tag (t : str) : Prop :=
  t <> [] /\ (forall c, In c t -> is_space c = false) /\ lower t = t.

(** Values whose printed form denotes the same value: no overflowed float, no
    logical inside a multi-token value. *)
Definition finite_float (x : float) : bool := match x with FFin _ _ _ => true | _ => false end.
Definition prints_faithfully (v : value) : Prop :=
  match v with
  | VAtom (AFloat x) => finite_float x = true
  | VAtom _ => True
  | VList l => forall a, In a l ->
      match a with ABool _ => False | AFloat x => finite_float x = true | _ => True end
  end.

(** The assignments written in a list of lines: text before '#', pieces between
    ';', each piece 'tag = value'.  (Pieces that are not of this form are ignored
    here; the parser rejects them.) *)
Definition piece_assignment (p : str) : list (str * str) :=
  match split_on "="%char p with
  | [t; v] => match split_ws t with w :: _ => [(lower w, v)] | [] => [] end
  | _ => []
  end.
Definition line_assignments (l : str) : list (str * str) :=
  flat_map piece_assignment (split_on ";"%char (hd [] (split_on "#"%char l))).
Definition assignments (ls : list str) : list (str * str) := flat_map line_assignments ls.

(** value text of the last assignment of [k] *)
Fixpoint last_assigned (k : str) (l : list (str * str)) : option str :=
  match l with
  | [] => None
  | (k', v) :: r => match last_assigned k r with
                    | Some w => Some w
                    | None => if seqb k k' then Some v else None
                    end
  end.

(** The typed value denoted by one token. *)
Definition has_logical (e : str) (b : bool) : Prop :=
  let trues := map lit [".True."; ".TRUE."; ".true."; ".t."; ".T."]%string in
  let falses := map lit [".False."; ".FALSE."; ".false."; ".f."; ".F."]%string in
  if b then exists m p q, In m trues /\ e = p ++ m ++ q
  else (exists m p q, In m falses /\ e = p ++ m ++ q) /\ ~ exists m p q, In m trues /\ e = p ++ m ++ q.
Inductive token_denotes (e : str) : atom -> Prop :=
| TD_int z : parse_int e = Some z -> token_denotes e (AInt z)
| TD_float x : parse_int e = None -> parse_float e = Some x -> token_denotes e (AFloat x)
| TD_bool b : parse_float e = None -> has_logical e b -> token_denotes e (ABool b)
| TD_str : parse_float e = None -> (forall b, ~ has_logical e b) -> token_denotes e (AStr e).

Definition raw_tag (k : str) : Prop := In k (map lit ["system"; "magmom"; "m_constr"]%string).

(** The value denoted by a value text for tag [k]. *)
Definition text_denotes (k v : str) (w : value) : Prop :=
  (raw_tag k /\ w = VAtom (AStr (strip v))) \/
  (~ raw_tag k /\ exists l, Forall2 token_denotes (split_ws v) l /\
                   w = match l with [a] => VAtom a | _ => VList l end).

(** the special literals: inf, infinity, nan in any case, with optional sign *)
Definition special (e : str) : Prop :=
  exists sgn w, strip e = sgn ++ w /\ In sgn [[]; lit "-"; lit "+"] /\
    In (lower w) (map lit ["inf"; "infinity"; "nan"]%string).


(** The word that names a tag given as [t]: its first word, in lower case. *)
Definition named (t k : str) : Prop := exists w r, split_ws t = w :: r /\ k = lower w.

(** The value denoted by a Python argument for tag [k]: text is interpreted,
    anything else is kept. *)
Definition is_text (v : value) : Prop := exists s, v = VAtom (AStr s).
Definition arg_denotes (k : str) (v : pyarg) (w : value) : Prop :=
  match v with
  | PVal (VAtom (AStr s)) => text_denotes k s w
  | PVal v' => w = v'
  | POther => False
  end.

(** Printed form of a value. *)
Definition shown_atom (a : atom) : str :=
  match a with
  | AInt z => str_of_Z z
  | AFloat x => repr_float x
  | ABool b => if b then lit "True" else lit "False"
  | AStr s => s
  end.
Definition shown (v : value) : str :=
  match v with
  | VAtom (ABool b) => if b then lit ".TRUE." else lit ".FALSE."
  | VAtom a => shown_atom a
  | VList l => join (lit " ") (map shown_atom l)
  end.
Definition shown_entry (kv : str * value) : str := upper (fst kv) ++ lit " = " ++ shown (snd kv).

(** first occurrences, in order *)
Fixpoint dedup (seen l : list str) : list str :=
  match l with
  | [] => []
  | x :: r => if smem x seen then dedup seen r else x :: dedup (seen ++ [x]) r
  end.

(** two lines with the same text before '#' *)
Definition same_before_hash (a b : str) : Prop :=
  exists p, ~ In "#"%char p /\ (a = p \/ exists q, a = p ++ "#"%char :: q) /\ (b = p \/ exists q, b = p ++ "#"%char :: q).

(** the outcome of a construction, seen through get_dict() *)
Definition outcome (r : res incar) : res (dict value) :=
  match r with Ok x => Ok (get_dict x) | Exn e => Exn e end.

(** the kinds of token that may not be mixed in one value *)
Inductive kind := KInt | KFloat | KText.
Definition atom_kind (a : atom) : kind :=
  match a with AInt _ => KInt | AFloat _ => KFloat | _ => KText end.

(** an object some history of calls produces *)
Definition reachable (x : incar) : Prop :=
  exists a vt x0 ops, incar_init a vt = Ok x0 /\ x = run x0 ops.

(** the comment stored with an entry: entries[k].get_comment() *)
Definition comment_at (x : incar) (k : str) : option str :=
  match dget k (ents x) with Some it => i_comment it | None => None end.


(** A well-formed piece: 'tag = value' with one '=', a tag word, and (unless the
    tag takes raw text) tokens of one kind, none of them inf/nan. *)
Definition piece_ok (p : str) : Prop :=
  exists t v k, p = t ++ "="%char :: v /\ ~ In "="%char t /\ ~ In "="%char v /\ named t k /\
    (raw_tag k \/ exists atoms, Forall2 token_denotes (split_ws v) atoms /\ (forall e, In e (split_ws v) -> ~ special e) /\
       (forall a b, In a atoms -> In b atoms -> atom_kind a = atom_kind b)).

(** pieces with nothing before '=', and pieces whose value has an inf/nan token *)
Definition blank_tag (p : str) : Prop := exists t v, p = t ++ "="%char :: v /\ split_ws t = [].
Definition special_value (p : str) : Prop := exists t v e, p = t ++ "="%char :: v /\ In e (split_ws v) /\ special e.

(** the pieces of a text given as lines: text before '#', cut at ';' *)
Definition before_hash (l : str) : str := hd [] (split_on "#"%char l).
Definition piece_of (ls : list str) (p : str) : Prop :=
  exists l, In l ls /\ split_ws (before_hash l) <> [] /\ In p (split_on ";"%char (before_hash l)).
