(** Model of parsevasp/incar.py (classes Incar and IncarItem) and of
    utils.test_string_content.  Loggers are not modelled. *)
From Coq Require Import Ascii String List NArith ZArith Bool Lia.
From Verif Require Import PyBase PyNum IncarTags.
Import ListNotations.
Local Open Scope list_scope.
Local Open Scope bool_scope.

(** Values an INCAR entry can hold: a scalar or a list of scalars.
    Simplification: lists given by a user contain only these scalars. *)
Inductive atom := AInt (z : Z) | AFloat (x : float) | ABool (b : bool) | AStr (s : str).
Inductive value := VAtom (a : atom) | VList (l : list atom).
(** A Python object given as a value; [POther]: any object that is not a str,
    bool, int, float or list (None, tuple, dict, ...). *)
Inductive pyarg := PVal (v : value) | POther.

Record item := Item { i_tag : str; i_value : value; i_comment : option str }.

(** utils.py:146-169 test_string_content *)
Inductive content := CInt | CFloat | CString.
Definition ceqb (a b : content) : bool :=
  match a, b with CInt, CInt | CFloat, CFloat | CString, CString => true | _, _ => false end.
Definition test_string_content (s : str) : content :=
  match parse_float s with
  | Some _ =>
      if (count_char "."%char s =? 0)%nat && negb (charb "e"%char s) && negb (charb "E"%char s)
      then CInt else CFloat
  | None => CString
  end.

(** incar.py:601-629 IncarItem._test_string_for_bool *)
Definition true_marks : list str := map lit [".True."; ".TRUE."; ".true."; ".t."; ".T."]%string.
Definition false_marks : list str := map lit [".False."; ".FALSE."; ".false."; ".f."; ".F."]%string.
Definition test_string_for_bool (s : str) : atom :=
  if existsb (fun p => substrb p s) true_marks then ABool true
  else if existsb (fun p => substrb p s) false_marks then ABool false
  else AStr s.

(** incar.py:556-566: one element of a value string *)
Definition clean_element (e : str) : res atom :=
  match test_string_content e with
  | CInt => match parse_int e with Some z => Ok (AInt z) | None => Exn ValueError end
  | CFloat => match parse_float e with Some x => Ok (AFloat x) | None => Exn ValueError end
  | CString => Ok (test_string_for_bool e)
  end.

(** incar.py:550-580: a whole value string *)
Definition clean_value_string (v : str) : res value :=
  let values := split_ws v in
  let* l := mapM clean_element values in
  let content_type := map test_string_content values in
  let cv := match l with [a] => VAtom a | _ => VList l end in
  match content_type with
  | [] => Ok cv
  | t :: _ => if forallb (ceqb t) content_type then Ok cv else Exn (SysExit 104)
  end.

(** incar.py:542 *)
Definition raw_tags : list str := map lit ["system"; "magmom"; "m_constr"]%string.

(** incar.py:495-599 IncarItem._clean_entry *)
Definition clean_entry (tag : str) (v : pyarg) (comment : option str) : res item :=
  match split_ws tag with
  | [] => Exn IndexError                       (* incar.py:526 clean_tag[0] *)
  | t :: _ =>
      let t := lower t in
      match v with
      | PVal (VAtom (AStr s)) =>
          if smem t raw_tags then Ok (Item t (VAtom (AStr (strip s))) None)   (* 542-546 *)
          else let* cv := clean_value_string s in
               Ok (Item t cv (option_map strip comment))
      | PVal v' => Ok (Item t v' (option_map strip comment))
      | POther => Exn (SysExit 105)
      end
  end.

Definition entries := dict item.

(** incar.py:164-188: one ';' fragment of a line *)
Definition add_fragment (comment : option str) (d : entries) (ntry : str) : res entries :=
  if seqb ntry [nl] then Ok d
  else match split_on "="%char ntry with
       | _ :: _ :: _ :: _ => Exn (SysExit 101)
       | [tag; v] =>
           let* it := clean_entry tag (PVal (VAtom (AStr v))) comment in
           Ok (dset (i_tag it) it d)
       | _ => Exn (SysExit 102)
       end.

(** incar.py:151-188: one line *)
Definition add_line (d : entries) (line : str) : res entries :=
  match split_ws (hd [] (split_on "#"%char line)) with
  | [] => Ok d
  | _ =>
      let (body, comment) := split_first "#"%char line in
      foldM (add_fragment comment) (split_on ";"%char body) d
  end.

(** incar.py:127-190 Incar._from_list *)
Definition from_list (lines : list str) : res entries := foldM add_line lines [].

(** incar.py:192-240 Incar._from_dict (string keys) *)
Definition add_dict_item (d : entries) (kv : str * pyarg) : res entries :=
  let (tag, v) := kv in
  let* it :=
    match v with
    | PVal (VAtom (AStr s)) =>
        match split_on "#"%char s with
        | _ :: _ :: _ :: _ => Exn (SysExit 103)
        | [a; b] => clean_entry tag (PVal (VAtom (AStr a))) (Some b)
        | _ => clean_entry tag v None
        end
    | _ => clean_entry tag v None
    end in
  Ok (dset (i_tag it) it d).
Definition from_dict (l : dict pyarg) : res entries := foldM add_dict_item l [].

(** str() of a scalar *)
Definition str_atom (a : atom) : str :=
  match a with
  | AInt z => str_of_Z z
  | AFloat x => repr_float x
  | ABool true => lit "True"
  | ABool false => lit "False"
  | AStr s => s
  end.

(** incar.py:242-278 _convert_value_to_string *)
Definition convert_value (v : value) : str :=
  match v with
  | VList l => join [sp] (map str_atom l)
  | VAtom (ABool true) => lit ".TRUE."
  | VAtom (ABool false) => lit ".FALSE."
  | VAtom a => str_atom a
  end.

(** incar.py:280-304 validate *)
Definition validate (flag : bool) (d : entries) : res unit :=
  if flag then
    if forallb (fun k => smem k incar_tags) (dkeys d) then Ok tt else Exn (SysExit 100)
  else Ok tt.

(** Constructor arguments: what is supplied for each source.  For [a_path],
    [Some None] is a path that cannot be opened. *)
Record args := Args {
  a_string : option str;
  a_dict : option (dict pyarg);
  a_path : option (option str);
  a_handler : option str }.

Definition given {A} (o : option A) : bool := match o with Some _ => true | None => false end.

(** utils.py:47-60, 81-83 read_from_file(path, handler) with lines=True, contains=None.
    [a_path] carries the decoded content of the file on disk; opening it in text
    mode translates its newlines.  [a_handler] carries the text the handler yields. *)
Definition read_lines (path : option (option str)) (handler : option str) : res (list str) :=
  match handler with
  | Some txt => Ok (readlines txt)
  | None => match path with
            | Some (Some txt) => Ok (readlines (translate_newlines txt))
            | _ => Exn (SysExit 14)            (* base.py:170-174 *)
            end
  end.

Record incar := Incar { ents : entries; validate_tags : bool }.

(** incar.py:34-107 Incar.__init__ *)
Definition incar_init (a : args) (vt : bool) : res incar :=
  let s := given (a_string a) in
  let d := given (a_dict a) in
  let p := given (a_path a) in
  let h := given (a_handler a) in
  if (s && d) || (s && p) || (d && p) && h then Exn (SysExit 10)     (* 76-80 *)
  else if negb s && negb d && negb p && negb h then Exn (SysExit 10) (* 83-88 *)
  else
    let* fl := if p || h then read_lines (a_path a) (a_handler a) else Ok [] in
    let lines := match a_string a with Some txt => splitlines txt | None => fl end in
    let* es := match a_dict a with None => from_list lines | Some dd => from_dict dd end in
    let* _ := validate vt es in
    Ok (Incar es vt).

Definition incar_of_string (txt : str) (vt : bool) : res incar :=
  incar_init (Args (Some txt) None None None) vt.
Definition incar_of_dict (d : dict pyarg) (vt : bool) : res incar :=
  incar_init (Args None (Some d) None None) vt.
Definition incar_of_file (txt : str) (vt : bool) : res incar :=
  incar_init (Args None None (Some (Some txt)) None) vt.

(** incar.py:306-324 modify *)
Definition modify (x : incar) (tag : str) (v : pyarg) (comment : option str) : res incar :=
  let* it := clean_entry tag v comment in
  Ok (Incar (dset (i_tag it) it (ents x)) (validate_tags x)).

(** incar.py:326-339 delete *)
Definition delete (x : incar) (tag : str) : incar := Incar (ddel tag (ents x)) (validate_tags x).

(** incar.py:341-374 get, comment=False *)
Definition get (x : incar) (tag : str) : option value := option_map i_value (dget tag (ents x)).
(** incar.py:363-374 get, comment=True: the second component is also get_value() *)
Inductive got := GValue (v : value) | GComment (c : option str) | GNone.
Definition get_comment (x : incar) (tag : str) : option value * got :=
  match dget tag (ents x) with
  | Some it => (Some (i_value it), GValue (i_value it))
  | None => (None, GNone)
  end.

(** incar.py:376-392 get_dict *)
Definition get_dict (x : incar) : dict value := map (fun kv => (fst kv, i_value (snd kv))) (ents x).

(** incar.py:438-444: one line of output *)
Definition write_item (comments : bool) (key : str) (it : item) : str :=
  let comment := match i_comment it with
                 | Some c => if comments then lit " # " ++ c else []
                 | None => []
                 end in
  upper key ++ lit " = " ++ convert_value (i_value it) ++ comment ++ [nl].

(** incar.py:414-445 _write *)
Definition write (comments : bool) (x : incar) : str :=
  concat (map (fun k => match dget k (ents x) with
                        | Some it => write_item comments k it
                        | None => []          (* unreachable: keys come from the dict *)
                        end) (ssort (dkeys (ents x)))).

(** incar.py:394-412 get_string *)
Definition get_string (x : incar) : str := write false x.

(** Histories of edits; an exception leaves the object unchanged. *)
Inductive op := OpModify (tag : str) (v : pyarg) (comment : option str) | OpDelete (tag : str).
Definition step (x : incar) (o : op) : incar :=
  match o with
  | OpModify t v c => match modify x t v c with Ok x' => x' | Exn _ => x end
  | OpDelete t => delete x t
  end.
Definition run (x : incar) (ops : list op) : incar := fold_left step ops x.
