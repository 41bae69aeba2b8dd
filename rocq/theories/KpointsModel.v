(** Model of parsevasp/kpoints.py (classes Kpoints and Kpoint). *)
From Coq Require Import Ascii String List NArith ZArith Bool Lia.
From Verif Require Import PyBase PyNum UtilsModel.
Import ListNotations.
Local Open Scope list_scope.
Local Open Scope bool_scope.

(** kpoints.py:969-1002 Kpoint: a one-dimensional array of floats, a weight (or
    None) and the direct flag.  Simplification: other types for these three
    fields are not modelled. *)
Record kpoint := Kpoint { kp_point : list float; kp_weight : option float; kp_direct : bool }.

(** Python objects that can be stored under a key.  [KOther]: any object that is
    none of the others and has no special behaviour (no get_value, get_direct,
    get_point attribute). *)
Inductive kval :=
| KNone | KStr (s : str) | KInt (z : Z) | KBool (b : bool) | KFloat (x : float)
| KList (l : list kval) | KPt (p : kpoint) | KOther.

Definition kentries := dict kval.

Definition is_knone (v : kval) : bool := match v with KNone => true | _ => false end.
(** isinstance(v, int): bool is a subclass of int *)
Definition is_int (v : kval) : bool := match v with KInt _ | KBool _ => true | _ => false end.
Definition is_float (v : kval) : bool := match v with KFloat _ => true | _ => false end.
Definition is_str (v : kval) : bool := match v with KStr _ => true | _ => false end.
Definition is_point (v : kval) : bool := match v with KPt _ => true | _ => false end.
(** the integer value of an int or bool *)
Definition int_value (v : kval) : Z :=
  match v with KInt z => z | KBool true => 1%Z | _ => 0%Z end.

Definition c_of (s : string) : str := lit s.
Definition hash : ascii := "#"%char.

(** s[0] *)
Definition head_char (s : str) : res ascii := match s with [] => Exn IndexError | c :: _ => Ok c end.
Definition get_float (s : str) : res float := of_option ValueError (parse_float s).
Definition get_int (s : str) : res Z := of_option ValueError (parse_int s).

(** kpoints.py:200-209: one explicit point *)
Definition read_point (line : str) : res kval :=
  let kentry := split_ws line in
  let* t0 := py_nth kentry 0 in let* x0 := get_float t0 in
  let* t1 := py_nth kentry 1 in let* x1 := get_float t1 in
  let* t2 := py_nth kentry 2 in let* x2 := get_float t2 in
  let* w := match nth_error kentry 3 with
            | Some t => let* x := get_float t in Ok (Some x)
            | None => Ok None
            end in
  Ok (KPt (Kpoint [x0; x1; x2] w true)).

(** kpoints.py:221-226: one tetrahedron line *)
Definition read_tetra_line (line : str) : res kval :=
  let con_line := split_ws line in
  if negb (length con_line =? 5)%nat then Exn (SysExit 201)
  else let* l := mapM get_int con_line in Ok (KList (map KInt l)).

(** kpoints[a], kpoints[a+1], ..., n of them *)
Definition line_at (ls : list str) (i : nat) : res str := py_nth ls i.
Definition read_range {A} (ls : list str) (start n : nat) (f : str -> res A) : res (list A) :=
  mapM (fun i => let* l := line_at ls i in f l) (seq start n).

(** kpoints.py:210-226: the part after the points, from line [lm] *)
Definition read_tetra (ls : list str) (lm : nat) : res (kval * kval) :=
  if (lm <? length ls)%nat then
    let* l := line_at ls lm in
    let* c := head_char (strip l) in
    if aeqb (lower1 c) "t"%char then
      if (S lm <? length ls)%nat then
        let* fl := line_at ls (S lm) in
        let first_line := split_ws fl in
        let* t0 := py_nth first_line 0 in let* num_tetra := get_int t0 in
        let* t1 := py_nth first_line 1 in let* vol := get_float t1 in
        let* tets := read_range ls (S (S lm)) (Z.to_nat num_tetra) read_tetra_line in
        Ok (KList tets, KFloat vol)
      else Ok (KList [], KNone)
    else Ok (KNone, KNone)
  else Ok (KNone, KNone).

(** list comprehension float(element) for element in line.split() *)
Definition floats_of_line (line : str) : res (list float) := mapM get_float (split_ws line).
Definition ints_of_line (line : str) : res (list Z) := mapM get_int (split_ws line).
Definition kfloats (l : list float) : kval := KList (map KFloat l).
Definition kints (l : list Z) : kval := KList (map KInt l).

(** kpoints.py:258-264: the points of line mode.  A line equal to a bare newline
    is skipped. *)
Definition read_line_points (ls : list str) : res (list kval) :=
  let* r := mapM (fun line =>
      if seqb line [nl] then Ok []
      else let* co := mapM get_float (firstn 3 (split_ws line)) in
           Ok [KPt (Kpoint co (Some (float_of_Z 1)) true)]) ls in
  Ok (concat r).

(** kpoints.py:227-248: automatic modes, (centering, divisions, generating vectors, shifts) *)
Definition read_automatic (c : ascii) (ls : list str) : res (kval * kval * kval * kval) :=
  if aeqb c "a"%char then Exn (SysExit 202)
  else if aeqb c "g"%char || aeqb c "m"%char then
    let centering := if aeqb c "g"%char then lit "Gamma" else lit "Monkhorst-Pack" in
    let* l3 := line_at ls 3 in
    let* d := ints_of_line l3 in
    let* sh := if (length ls =? 5)%nat
               then let* l4 := line_at ls 4 in let* x := floats_of_line l4 in Ok (kfloats x)
               else Ok KNone in
    Ok (KStr centering, kints d, KNone, sh)
  else if aeqb c "r"%char then
    let* gv := mapM (fun i => let* l := line_at ls i in let* x := floats_of_line l in Ok (kfloats x)) [3; 4; 5] in
    let* l6 := line_at ls 6 in
    let* sh := floats_of_line l6 in
    Ok (KStr (lit "Reciprocal"), KNone, KList gv, kfloats sh)
  else if aeqb c "d"%char || aeqb c "c"%char then Exn (SysExit 203)
  else Ok (KNone, KNone, KNone, KNone).

(** kpoints.py:271-282: the dictionary that is returned *)
Definition make_entries (comment divisions gv shifts points tetra vol mode centering num : kval) : kentries :=
  [(lit "comment", comment); (lit "divisions", divisions); (lit "generating_vectors", gv);
   (lit "shifts", shifts); (lit "points", points); (lit "tetra", tetra);
   (lit "tetra_volume", vol); (lit "mode", mode); (lit "centering", centering);
   (lit "num_kpoints", num)].

(** kpoints.py:149-284 _from_list *)
Definition from_list (ls : list str) : res kentries :=
  let* l0 := line_at ls 0 in
  let comment := strip (filter (fun c => negb (aeqb c hash)) l0) in
  let* l1 := line_at ls 1 in
  let* t := py_nth (split_ws l1) 0 in
  let* num := get_int t in
  let automatic := (num <=? 0)%Z in
  let* l2 := line_at ls 2 in
  let* c0 := head_char (strip l2) in
  let c := lower1 c0 in
  let line_mode := aeqb c "l"%char in
  let* (points, tetra, vol) :=
    if negb automatic && negb line_mode then
      if aeqb c "k"%char || aeqb c "c"%char then Exn (SysExit 200)
      else
        let n := Z.to_nat num in
        let* pts := read_range ls 3 n read_point in
        let* (te, v) := read_tetra ls (n + 3) in
        Ok (KList pts, te, v)
    else Ok (KNone, KNone, KNone) in
  let* (centering, divisions, gv, shifts) :=
    if automatic then read_automatic c ls else Ok (KNone, KNone, KNone, KNone) in
  let* points :=
    if line_mode then
      let* l3 := line_at ls 3 in
      let* w := py_nth (split_ws l3) 0 in
      let* r := head_char w in
      if aeqb (lower1 r) "r"%char || aeqb (lower1 r) "d"%char then
        let* pts := read_line_points (skipn 4 ls) in Ok (KList pts)
      else Exn (SysExit 200)
    else Ok points in
  let mode := if line_mode then lit "line" else if automatic then lit "automatic" else lit "explicit" in
  Ok (make_entries (KStr comment) divisions gv shifts points tetra vol (KStr mode) centering (KInt num)).

(** entries[key], a KeyError when missing *)
Definition key (es : kentries) (k : string) : res kval := of_option KeyError (dget (lit k) es).
(** the value under check: the argument, or the entry when the argument is None;
    a missing entry exits with 12 *)
Definition arg_or_key (es : kentries) (k : string) (v : kval) : res kval :=
  if is_knone v then of_option (SysExit 12) (dget (lit k) es) else Ok v.

(** kpoints.py:381-398 _check_dict (Python's [and] stops at the first key that is not None) *)
Definition check_dict (es : kentries) : res unit :=
  let* d := key es "divisions" in
  if is_knone d then
    let* p := key es "points" in
    if is_knone p then
      let* g := key es "generating_vectors" in
      if is_knone g then Exn (SysExit 206) else Ok tt
    else Ok tt
  else Ok tt.

(** kpoints.py:399-414 _check_allowed_entries: substring tests *)
Definition allowed_names : list str :=
  map lit ["comment"; "points"; "tetra"; "tetra_volume"; "divisions"; "mode"; "num_kpoints"; "shifts"; "centering"]%string.
Definition check_allowed_entries (entry : str) : res unit :=
  if existsb (fun n => substrb n entry) allowed_names then Ok tt else Exn (SysExit 207).

Definition reject (b : bool) (code : Z) : res unit := if b then Exn (SysExit code) else Ok tt.

(** kpoints.py:416-439 _check_comment *)
Definition check_comment (es : kentries) (v : kval) : res unit :=
  let* c := arg_or_key es "comment" v in
  let* cur := key es "comment" in
  if is_knone cur then Ok tt else reject (negb (is_str c)) 13.

(** kpoints.py:441-465 _check_points *)
Definition check_points (es : kentries) (v : kval) : res unit :=
  let* p := arg_or_key es "points" v in
  match p with KNone | KList _ => Ok tt | _ => Exn (SysExit 13) end.

(** kpoints.py:467-491 _check_point *)
Definition check_point (es : kentries) (v : kval) : res unit :=
  if is_knone v then
    let* p := arg_or_key es "points" KNone in
    match p with
    | KList l => reject (negb (forallb is_point l)) 210
    | KNone | KInt _ | KBool _ | KFloat _ | KPt _ | KOther => Exn TypeError   (* not iterable *)
    | KStr s => match s with [] => Ok tt | _ => Exn (SysExit 210) end
    end
  else reject (negb (is_point v)) 210.

(** kpoints.py:493-512 _check_point_number *)
Definition check_point_number (es : kentries) (n : kval) : res unit :=
  if is_int n then
    let* p := key es "points" in
    let* len := match p with
                | KList l => Ok (length l)
                | KStr s => Ok (length s)
                | _ => Exn TypeError
                end in
    reject (Z.of_nat len - 1 <? int_value n)%Z 211
  else Exn (SysExit 13).

(** kpoints.py:514-545 _check_shifts *)
Definition check_shifts (es : kentries) (v : kval) : res unit :=
  let* s := arg_or_key es "shifts" v in
  match s with
  | KNone => Ok tt
  | KList l => reject (negb (forallb is_float l)) 13
  | _ => Exn (SysExit 13)
  end.

(** kpoints.py:547-570 _check_tetra_volume *)
Definition check_tetra_volume (es : kentries) (v : kval) : res unit :=
  let* s := arg_or_key es "tetra_volume" v in
  match s with KNone | KFloat _ => Ok tt | _ => Exn (SysExit 13) end.

(** kpoints.py:572-603 _check_divisions *)
Definition check_divisions (es : kentries) (v : kval) : res unit :=
  let* s := arg_or_key es "divisions" v in
  match s with
  | KNone => Ok tt
  | KList l => reject (negb (forallb is_int l)) 13
  | _ => Exn (SysExit 13)
  end.

(** kpoints.py:605-644 _check_generating_vectors *)
Definition is_float_list (v : kval) : bool := match v with KList l => forallb is_float l | _ => false end.
Definition check_generating_vectors (es : kentries) (v : kval) : res unit :=
  let* s := arg_or_key es "generating_vectors" v in
  match s with
  | KNone => Ok tt
  | KList l => reject (negb (forallb is_float_list l)) 13
  | _ => Exn (SysExit 13)
  end.

(** kpoints.py:646-687 _check_tetra: in order, each element is a list (13), of
    length five (201), of ints (13) *)
Definition check_tetra_element (v : kval) : res unit :=
  match v with
  | KList l => if negb (length l =? 5)%nat then Exn (SysExit 201)
               else reject (negb (forallb is_int l)) 13
  | _ => Exn (SysExit 13)
  end.
Definition check_tetra (es : kentries) (v : kval) : res unit :=
  let* s := arg_or_key es "tetra" v in
  match s with
  | KNone => Ok tt
  | KList l => let* _ := mapM check_tetra_element l in Ok tt
  | _ => Exn (SysExit 13)
  end.

(** kpoints.py:689-711 _check_centering *)
Definition centerings : list str := map lit ["Gamma"; "Monkhorst-Pack"; "Reciprocal"]%string.
Definition check_centering (es : kentries) (v : kval) : res unit :=
  let* s := arg_or_key es "centering" v in
  match s with
  | KNone => Ok tt
  | KStr t => reject (negb (smem t centerings)) 212
  | _ => Exn (SysExit 212)
  end.

(** kpoints.py:713-735 _check_num_kpoints *)
Definition check_num_kpoints (es : kentries) (v : kval) : res unit :=
  let* s := arg_or_key es "num_kpoints" v in
  reject (negb (is_int s)) 13.

(** kpoints.py:737-758 _check_mode *)
Definition modes : list str := map lit ["explicit"; "automatic"; "line"]%string.
Definition check_mode (es : kentries) (v : kval) : res unit :=
  let* s := arg_or_key es "mode" v in
  match s with
  | KNone => Ok tt
  | KStr t => reject (negb (smem t modes)) 213
  | _ => Exn (SysExit 213)
  end.

(** kpoints.py:760-774 _validate *)
Definition validate (es : kentries) : res unit :=
  let* _ := check_dict es in
  let* _ := check_comment es KNone in
  let* _ := check_points es KNone in
  let* _ := check_centering es KNone in
  let* _ := check_divisions es KNone in
  let* _ := check_generating_vectors es KNone in
  let* _ := check_shifts es KNone in
  let* _ := check_mode es KNone in
  let* _ := check_num_kpoints es KNone in
  let* _ := check_tetra es KNone in
  check_tetra_volume es KNone.

(** Sources given to the constructor. *)
Record kargs := KArgs { ka_string : option str; ka_dict : option kentries;
                        ka_path : source_path; ka_handler : source_handler }.

(** kpoints.py:63-124 __init__ *)
Definition kpoints_init (a : kargs) : res kentries :=
  let s := is_some (ka_string a) in let d := is_some (ka_dict a) in
  let p := is_some (ka_path a) in let h := is_some (ka_handler a) in
  if (s && d) || (s && p) || (d && p && h) then Exn (SysExit 10)            (* 99-106 *)
  else if negb s && negb d && negb p && negb h then Exn (SysExit 10)        (* 107-112 *)
  else
    let* d1 := if p || h then                                                (* 114-116 *)
                 let* ls := read_from_file (ka_path a) (ka_handler a) CNone in
                 let* es := from_list ls in Ok (Some es)
               else Ok (ka_dict a) in
    let* d2 := match ka_string a with                                        (* 118-120 *)
               | Some txt => let* es := from_list (splitlines txt) in Ok (Some es)
               | None => Ok d1
               end in
    match d2 with
    | Some es => let* _ := validate es in Ok es
    | None => Exn TypeError                                                  (* unreachable *)
    end.
Definition kpoints_of_string (txt : str) : res kentries := kpoints_init (KArgs (Some txt) None None None).
Definition kpoints_of_file (txt : str) : res kentries := kpoints_init (KArgs None None (Some (Some txt)) None).
Definition kpoints_of_handler (txt : str) : res kentries := kpoints_init (KArgs None None None (Some txt)).
Definition kpoints_of_dict (d : kentries) : res kentries := kpoints_init (KArgs None (Some d) None None).

(** Python list indexing l[n] with a possibly negative n: position in the list *)
Definition list_index {A} (l : list A) (n : Z) : option nat :=
  let len := Z.of_nat (length l) in
  if (0 <=? n)%Z then if (n <? len)%Z then Some (Z.to_nat n) else None
  else if (- len <=? n)%Z then Some (Z.to_nat (len + n)) else None.
(** l[i] = v *)
Fixpoint list_set {A} (l : list A) (i : nat) (v : A) : list A :=
  match l, i with
  | [], _ => []
  | _ :: r, O => v :: r
  | x :: r, S j => x :: list_set r j v
  end.
(** del l[i] *)
Fixpoint list_del {A} (l : list A) (i : nat) : list A :=
  match l, i with
  | [], _ => []
  | _ :: r, O => r
  | x :: r, S j => x :: list_del r j
  end.

(** kpoints.py:316-325: every point of the list is direct *)
Definition check_direct (v : kval) : res unit :=
  match v with
  | KPt p => if kp_direct p then Ok tt else Exn (SysExit 205)
  | _ => Exn AttributeError
  end.

(** kpoints.py:286-347 modify *)
Definition modify (es : kentries) (entry : str) (value : kval) (point_number : option kval) : res kentries :=
  let* _ := check_allowed_entries entry in
  let* _ := check_dict es in
  match point_number with
  | Some n =>
      let* _ := check_point es value in
      let* _ := check_point_number es n in
      (* 313-315 is unreachable: check_point_number has tested the type *)
      let* p := key es "points" in
      match p with
      | KList l => match list_index l (int_value n) with
                   | Some i => Ok (dset (lit "points") (KList (list_set l i value)) es)
                   | None => Exn IndexError
                   end
      | _ => Exn TypeError
      end
  | None =>
      let is k := seqb entry (lit k) in
      let* _ := if is "points"%string then
                  let* _ := check_points es value in
                  match value with
                  | KList l => let* _ := mapM check_direct l in Ok tt
                  | _ => Exn TypeError            (* iterating None *)
                  end
                else Ok tt in
      let* _ := if is "comment"%string then check_comment es value else Ok tt in
      let* _ := if is "divisions"%string then check_divisions es value else Ok tt in
      let* _ := if is "generating_vectors"%string then check_generating_vectors es value else Ok tt in
      let* _ := if is "shifts"%string then check_shifts es value else Ok tt in
      let* _ := if is "tetra"%string then check_tetra es value else Ok tt in
      let* _ := if is "tetra_volume"%string then check_tetra_volume es value else Ok tt in
      let* _ := if is "centering"%string then check_centering es value else Ok tt in
      let* _ := if is "mode"%string then check_mode es value else Ok tt in
      let* _ := if is "num_kpoints"%string then check_num_kpoints es value else Ok tt in
      Ok (dset entry value es)
  end.

(** kpoints.py:350-364 delete_point *)
Definition delete_point (es : kentries) (n : kval) : res kentries :=
  let* _ := check_points es KNone in
  let* _ := check_point_number es n in
  let* p := key es "points" in
  match p with
  | KList l => match list_index l (int_value n) with
               | Some i => Ok (dset (lit "points") (KList (list_del l i)) es)
               | None => Exn IndexError
               end
  | _ => Exn TypeError
  end.

(** kpoints.py:784-806 get: [entries[tag].get_value()]; no object stored there
    has a get_value attribute *)
Definition get (es : kentries) (tag : str) : res kval :=
  match dget tag es with None => Ok KNone | Some _ => Exn AttributeError end.

(** kpoints.py:808-832 get_dict *)
Definition dict_point (v : kval) : res kval :=
  match v with
  | KPt p => Ok (KList [kfloats (kp_point p);
                        match kp_weight p with Some w => KFloat w | None => KNone end;
                        KBool (kp_direct p)])
  | _ => Exn AttributeError
  end.
Definition get_dict (es : kentries) : res kentries :=
  mapM (fun kv : str * kval =>
    if seqb (fst kv) (lit "points") then
      match snd kv with
      | KNone => Ok kv
      | KList l => let* r := mapM dict_point l in Ok (fst kv, KList r)
      | _ => Exn TypeError
      end
    else Ok kv) es.

(** ** Writing.  [prec] is the number of decimals, the width is prec + 4
    (kpoints.py:90-94) *)
Definition width (prec : nat) : nat := prec + 4.
Definition fmtf (prec : nat) (x : float) : str := fmt_f (width prec) prec x.
Definition fmtd6 (z : Z) : str := fmt_d 6 z.

(** an item formatted with 'd' or 'f'; anything else is a TypeError
    (simplification: an int given to an 'f' field is not modelled) *)
Definition as_int (v : kval) : res Z := if is_int v then Ok (int_value v) else Exn TypeError.
Definition as_float (v : kval) : res float := match v with KFloat x => Ok x | _ => Exn TypeError end.

Definition sp1 : str := [sp].

(** kpoints.py:880-898: a point with its weight *)
Definition write_point (prec : nat) (v : kval) : res str :=
  match v with
  | KPt p =>
      let w := match kp_weight p with Some w => w | None => float_of_Z 1 end in
      let* x0 := py_nth (kp_point p) 0 in
      let* x1 := py_nth (kp_point p) 1 in
      let* x2 := py_nth (kp_point p) 2 in
      Ok (fmtf prec x0 ++ sp1 ++ fmtf prec x1 ++ sp1 ++ fmtf prec x2 ++ sp1 ++ fmtf prec w ++ [nl])
  | _ => Exn AttributeError
  end.

(** kpoints.py:907-918 *)
Definition write_tetra_line (v : kval) : res str :=
  match v with
  | KList l =>
      let* l5 := mapM (fun i => let* e := py_nth l i in as_int e) [0; 1; 2; 3; 4] in
      Ok (join sp1 (map fmtd6 l5) ++ [nl])
  | _ => Exn TypeError
  end.

(** kpoints.py:899-918 *)
Definition write_tetra (prec : nat) (es : kentries) : res str :=
  let* t := key es "tetra" in
  match t with
  | KNone => Ok []
  | KList l =>
      let* v := key es "tetra_volume" in
      let* x := as_float v in
      let* ls := mapM write_tetra_line l in
      Ok (lit "Tetrahedra" ++ [nl] ++ fmtd6 (Z.of_nat (length l)) ++ sp1 ++ fmtf prec x ++ [nl] ++ concat ls)
  | _ => Exn TypeError
  end.

(** three floats on a line *)
Definition write_vec (prec : nat) (v : kval) : res str :=
  match v with
  | KList l =>
      let* l3 := mapM (fun i => let* e := py_nth l i in as_float e) [0; 1; 2] in
      Ok (join sp1 (map (fmtf prec) l3) ++ [nl])
  | _ => Exn TypeError
  end.

(** kpoints.py:954-961, a point of line mode *)
Definition write_line_point (prec : nat) (v : kval) : res str :=
  match v with
  | KPt p =>
      let* x0 := py_nth (kp_point p) 0 in
      let* x1 := py_nth (kp_point p) 1 in
      let* x2 := py_nth (kp_point p) 2 in
      Ok (fmtf prec x0 ++ sp1 ++ fmtf prec x1 ++ sp1 ++ fmtf prec x2 ++ [nl])
  | _ => Exn AttributeError
  end.
(** a blank line after every second point; [second] is complete_set == 2 *)
Fixpoint pair_lines (second : bool) (ls : list str) : str :=
  match ls with
  | [] => []
  | l :: r => l ++ (if second then [nl] else []) ++ pair_lines (negb second) r
  end.

Definition points_of (v : kval) : res (list kval) :=
  match v with KList l => Ok l | _ => Exn TypeError end.

(** kpoints.py:876-918 *)
Definition write_explicit (prec : nat) (es : kentries) : res str :=
  let* n := key es "num_kpoints" in
  let* nz := as_int n in
  let* p := key es "points" in
  let* pts := points_of p in
  let* ls := mapM (write_point prec) pts in
  let* t := write_tetra prec es in
  Ok (fmtd6 nz ++ [nl] ++ lit "Direct" ++ [nl] ++ concat ls ++ t).

(** kpoints.py:919-946 *)
Definition write_automatic (prec : nat) (es : kentries) : res str :=
  let* c := key es "centering" in
  let* cs := match c with KStr s => Ok s | _ => Exn TypeError end in
  let* d := key es "divisions" in
  let* ds := match d with
             | KNone => Ok []
             | KList l => let* l3 := mapM (fun i => let* e := py_nth l i in as_int e) [0; 1; 2] in
                          Ok (join sp1 (map (fmt_d (width prec)) l3) ++ [nl])
             | _ => Exn TypeError
             end in
  let* g := key es "generating_vectors" in
  let* gs := match g with
             | KNone => Ok []
             | KList l => let* ls := mapM (write_vec prec) l in Ok (concat ls)
             | _ => Exn TypeError
             end in
  let* s := key es "shifts" in
  let* ss := match s with
             | KNone => write_vec prec (kfloats [float_of_Z 0; float_of_Z 0; float_of_Z 0])
             | _ => write_vec prec s
             end in
  Ok (lit "0" ++ [nl] ++ cs ++ [nl] ++ ds ++ gs ++ ss).

(** kpoints.py:948-966 *)
Definition write_line (prec : nat) (es : kentries) : res str :=
  let* n := key es "num_kpoints" in
  let* nz := as_int n in
  let* p := key es "points" in
  let* pts := points_of p in
  let* ls := mapM (write_line_point prec) pts in
  Ok (fmtd6 nz ++ [nl] ++ lit "Line-mode" ++ [nl] ++ lit "Direct" ++ [nl] ++ pair_lines false ls).

(** kpoints.py:855-966 _write *)
Definition write (prec : nat) (es : kentries) : res str :=
  let* _ := validate es in
  let* c := key es "comment" in
  let* cs := match c with
             | KNone => Ok (lit "# No comment")
             | KStr s => Ok (lit "# " ++ s)
             | _ => Exn TypeError
             end in
  let first := cs ++ [nl] in
  let* m := key es "mode" in
  match m with
  | KStr mode =>
      if seqb mode (lit "explicit") then let* b := write_explicit prec es in Ok (first ++ b)
      else if seqb mode (lit "automatic") then let* b := write_automatic prec es in Ok (first ++ b)
      else if seqb mode (lit "line") then let* b := write_line prec es in Ok (remove_newline (first ++ b))
      else Ok first
  | _ => Ok first
  end.

(** kpoints.py:834-853 get_string: the text written to a StringIO; the default
    precision is 9 (kpoints.py:90-92) *)
Definition get_string (prec : nat) (es : kentries) : res str := write prec es.

(** Histories of edits; an exception leaves the object unchanged. *)
Inductive kop := KModify (entry : str) (v : kval) (n : option kval) | KDelete (n : kval).
Definition kstep (es : kentries) (o : kop) : kentries :=
  match o with
  | KModify e v n => match modify es e v n with Ok x => x | Exn _ => es end
  | KDelete n => match delete_point es n with Ok x => x | Exn _ => es end
  end.
Definition krun (es : kentries) (ops : list kop) : kentries := fold_left kstep ops es.
