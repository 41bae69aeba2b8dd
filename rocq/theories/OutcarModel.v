(** Model of parsevasp/outcar.py (whole file) and of utils.match_integer_param.
    Loggers are not modelled.  Numbers are Python ints and binary64 floats. *)
From Coq Require Import Ascii String List NArith ZArith Bool Lia.
From Verif Require Import PyBase PyNum UtilsModel.
Import ListNotations.
Local Open Scope list_scope.
Local Open Scope bool_scope.

(** ** Regular expressions, as matchers.  Each has only one way to match from a given
    position, so no backtracking is involved. *)
(** the longest prefix of characters satisfying [f], and the rest *)
Fixpoint span (f : ascii -> bool) (l : str) : str * str :=
  match l with
  | [] => ([], [])
  | c :: r => if f c then let (a, b) := span f r in (c :: a, b) else ([], l)
  end.
Definition is_sp (c : ascii) : bool := aeqb c sp.
(** drop the prefix [p] *)
Fixpoint after (p l : str) : option str :=
  match p, l with
  | [], _ => Some l
  | x :: p', y :: l' => if aeqb x y then after p' l' else None
  | _ :: _, [] => None
  end.
(** outcar.py:135 r'Iteration *(\d+)\( *(\d+)\)' at the beginning of [l] *)
Definition iteration_here (l : str) : option (str * str) :=
  match after (lit "Iteration") l with
  | None => None
  | Some l1 =>
      let (a, l2) := span is_digit (snd (span is_sp l1)) in
      match a with
      | [] => None
      | _ => match after (lit "(") l2 with
             | None => None
             | Some l3 =>
                 let (b, l4) := span is_digit (snd (span is_sp l3)) in
                 match b with
                 | [] => None
                 | _ => match after (lit ")") l4 with Some _ => Some (a, b) | None => None end
                 end
             end
      end
  end.
(** re.search of it *)
Fixpoint iteration (l : str) : option (str * str) :=
  match iteration_here l with
  | Some m => Some m
  | None => match l with [] => None | _ :: r => iteration r end
  end.
Definition is_int_char (c : ascii) : bool := is_digit c || aeqb c "-".
(** utils.py:356 re.match(r'^ +' + key + r' *= *([-0-9]+)', string): the captured text *)
Definition param_match (key l : str) : option str :=
  let (a, l1) := span is_sp l in
  match a with
  | [] => None
  | _ => match after key l1 with
         | None => None
         | Some l2 => match after (lit "=") (snd (span is_sp l2)) with
                      | None => None
                      | Some l3 => match fst (span is_int_char (snd (span is_sp l3))) with [] => None | t => Some t end
                      end
         end
  end.
(** int(text) *)
Definition to_int (t : str) : res Z := of_option ValueError (parse_int t).
Definition to_float (t : str) : res float := of_option ValueError (parse_float t).
(** utils.py:336-358 match_integer_param: the value to store, if the line matches *)
Definition match_integer_param (key : str) (old : option Z) (line : str) : res (option Z) :=
  match param_match key line with
  | None => Ok old
  | Some t => let* z := to_int t in Ok (Some z)
  end.
(** str.split(d)[1] for a separator [d] known to occur: the text between its first and
    its second occurrence *)
Fixpoint upto (d l : str) : str :=
  if prefixb d l then [] else match l with [] => [] | c :: r => c :: upto d r end.
Fixpoint past (d l : str) : str :=
  match after d l with Some r => r | None => match l with [] => [] | _ :: r => past d r end end.
Definition split_second (d l : str) : str := upto d (past d l).

(** ** Data *)
Definition zdict (V : Type) := list (Z * V).
Fixpoint zget {V} (k : Z) (d : zdict V) : option V :=
  match d with [] => None | (k', v) :: r => if (k =? k')%Z then Some v else zget k r end.
Fixpoint zset {V} (k : Z) (v : V) (d : zdict V) : zdict V :=
  match d with [] => [(k, v)] | (k', v') :: r => if (k =? k')%Z then (k', v) :: r else (k', v') :: zset k v r end.

Inductive config := CfgNone | CfgStatic | CfgDynamic.
(** {'static': ..., 'dynamic': ...} *)
Record two (A : Type) := Two { st_part : A; dy_part : A }.
Arguments Two {A}. Arguments st_part {A}. Arguments dy_part {A}.
(** d[config].append(x) *)
Definition push {A} (c : config) (x : A) (t : two (list A)) : two (list A) :=
  match c with
  | CfgNone => t
  | CfgStatic => Two (st_part t ++ [x]) (dy_part t)
  | CfgDynamic => Two (st_part t) (dy_part t ++ [x])
  end.
(** entries of original_cell_type: the text 'primitive cell', or the text made of
    Python's representation of a list of words followed by ' primitive cells' *)
Inductive cell_type := CellPrimitive | CellSupercell (words : list str).
(** one of the spheres: moments per site, and the totals *)
Record sphere := Sphere { sp_site : zdict (dict float); sp_total : dict float }.
Record odata := OData {
  od_elastic : dict (option (list (list float)));
  od_operations : two (list Z); od_original : two (list cell_type); od_symmetrized : two (list str);
  od_sphere : dict sphere; od_full_cell : option (list float);
  od_nsw : option Z; od_nelm : option Z; od_nbands : option Z; od_finished : bool;
  (* local variables of _from_list *)
  ov_config : config; ov_ibrion : Z; ov_iter : option (Z * Z); ov_steps : zdict Z }.
(** outcar.py:45-93, 126-131 *)
Definition odata0 : odata :=
  OData [(lit "non-symmetrized", None); (lit "symmetrized", None); (lit "total", None)]
        (Two [] []) (Two [] []) (Two [] [])
        (map (fun p => (lit p, Sphere [] [])) ["x"; "y"; "z"]%string) None
        None None None false CfgNone (-1) None [].

Definition startswith (l : str) (p : string) : bool := prefixb (lit p) l.
Definition contains (l : str) (p : string) : bool := substrb (lit p) l.

(** 135-142 *)
Definition count_iteration (d : odata) (a b : Z) : odata :=
  let steps := match zget a (ov_steps d) with Some n => zset a (n + 1)%Z (ov_steps d) | None => zset a 1%Z (ov_steps d) end in
  OData (od_elastic d) (od_operations d) (od_original d) (od_symmetrized d) (od_sphere d) (od_full_cell d)
        (od_nsw d) (od_nelm d) (od_nbands d) (od_finished d) (ov_config d) (ov_ibrion d) (Some (a, b)) steps.

(** 144-152: parameters and the closing banner *)
Definition step_params (d : odata) (line : str) : res odata :=
  let* nsw := match_integer_param (lit "NSW") (od_nsw d) line in
  let* ibrion := match_integer_param (lit "IBRION") (Some (ov_ibrion d)) line in
  let* nelm := match_integer_param (lit "NELM") (od_nelm d) line in
  let* nbands := if contains line "NBANDS=" then let* z := to_int (strip (split_second (lit "NBANDS=") line)) in Ok (Some z) else Ok (od_nbands d) in
  Ok (OData (od_elastic d) (od_operations d) (od_original d) (od_symmetrized d) (od_sphere d) (od_full_cell d)
        nsw nelm nbands (od_finished d || contains line "timing and accounting informations")
        (ov_config d) (match ibrion with Some z => z | None => ov_ibrion d end) (ov_iter d) (ov_steps d)).

(** 153-169: symmetry.  [next]: outcar[index + 1] *)
Definition step_symmetry (next : res str) (d : odata) (line : str) : res odata :=
  let s := strip line in
  let c := if startswith s "Analysis of symmetry for initial positions (statically)" then CfgStatic else ov_config d in
  let c := if startswith s "Analysis of symmetry for dynamics" then CfgDynamic else c in
  let* (ops, orig, sym) :=
    match c with
    | CfgNone => Ok (od_operations d, od_original d, od_symmetrized d)
    | _ =>
        let* orig := if startswith s "Subroutine PRICEL returns" then
                       let* t := next in
                       Ok (match lower (strip t) with [] => od_original d | _ => push c CellPrimitive (od_original d) end)
                     else Ok (od_original d) in
        let orig := if contains line "primitive cells build up your supercell" then push c (CellSupercell (split_ws s)) orig else orig in
        let* sym := if startswith s "Routine SETGRP: Setting up the symmetry group for a" then
                      let* t := next in Ok (push c (lower (strip t)) (od_symmetrized d))
                    else Ok (od_symmetrized d) in
        let* ops := if startswith s "Subroutine GETGRP returns" then
                      let* w := py_nth (split_ws s) 4 in let* z := to_int w in Ok (push c z (od_operations d))
                    else Ok (od_operations d) in
        Ok (ops, orig, sym)
    end in
  Ok (OData (od_elastic d) ops orig sym (od_sphere d) (od_full_cell d)
        (od_nsw d) (od_nelm d) (od_nbands d) (od_finished d) c (ov_ibrion d) (ov_iter d) (ov_steps d)).

(** 173-175: [tail]: the lines from index on; rows index+3 .. index+8.  np.asarray is
    the identity here: rows of different lengths are outside the model. *)
Definition same_lengths (rows : list (list float)) : bool :=
  match rows with [] => true | r :: rs => forallb (fun x => Nat.eqb (length x) (length r)) rs end.
Definition tensor_at (tail : list str) : res (list (list float)) :=
  let* rows := mapM (fun i => let* l := py_nth tail i in mapM to_float (tl (split_ws (strip l)))) [3; 4; 5; 6; 7; 8] in
  if same_lengths rows then Ok rows else Exn OutOfModel.
(** 171-186 *)
Definition step_elastic (tail : list str) (d : odata) (line : str) : res odata :=
  let s := strip line in
  let* e := if startswith s "ELASTIC MODULI  (kBar)" then let* t := tensor_at tail in Ok (dset (lit "non_symmetrized") (Some t) (od_elastic d)) else Ok (od_elastic d) in
  let* e := if startswith s "SYMMETRIZED ELASTIC MODULI" then let* t := tensor_at tail in Ok (dset (lit "symmetrized") (Some t) e) else Ok e in
  let* e := if startswith s "TOTAL ELASTIC MODULI" then let* t := tensor_at tail in Ok (dset (lit "total") (Some t) e) else Ok e in
  Ok (OData e (od_operations d) (od_original d) (od_symmetrized d) (od_sphere d) (od_full_cell d)
        (od_nsw d) (od_nelm d) (od_nbands d) (od_finished d) (ov_config d) (ov_ibrion d) (ov_iter d) (ov_steps d)).

(** 127 s_orb *)
Definition s_orb (i : nat) : res str := of_option KeyError (nth_error (map lit ["s"; "p"; "d"; "f"]%string) i).
(** 197-203, 207-212: the moments on a line of words (the first word is skipped) *)
Definition moments (words : list str) : res (dict float) :=
  let* d := foldM (fun d iw => let* x := to_float (snd iw) in let* o := s_orb (fst iw) in Ok (dset o x d))
                  (combine (seq 0 (length (removelast (tl words)))) (removelast (tl words))) [] in
  let* t := match rev words with [] => Exn IndexError | w :: _ => to_float w end in
  Ok (dset (lit "tot") t d).
(** 191-221: the while loop, on the lines from index + 4 on *)
Fixpoint read_moments (lines : list str) (sph : sphere) : res sphere :=
  match lines with
  | [] => Exn IndexError
  | l :: rest =>
      match split_ws (strip l) with
      | [] =>                                                                   (* 214-220 *)
          match sp_site sph with
          | [] => Exn IndexError
          | (_, m) :: _ => Ok (Sphere (sp_site sph) m)
          end
      | _ =>
          let* sph1 :=
            if negb (startswith (strip l) "-") && negb (startswith (strip l) "tot") then     (* 193-203 *)
              let* w := py_nth (split_ws l) 0 in let* k := to_int w in
              let* m := moments (split_ws l) in Ok (Sphere (zset k m (sp_site sph)) (sp_total sph))
            else Ok sph in
          if startswith (strip l) "tot" then                                    (* 204-213 *)
            let* m := moments (split_ws l) in Ok (Sphere (sp_site sph1) m)
          else read_moments rest sph1
      end
  end.
(** 187-224 *)
Definition step_magnetization (tail : list str) (d : odata) (line : str) : res odata :=
  let s := strip line in
  let* sph := foldM (fun m p =>
      if prefixb (lit "magnetization (" ++ lit p ++ lit ")") s then
        let* old := of_option KeyError (dget (lit p) m) in
        let* new := read_moments (skipn 4 tail) old in Ok (dset (lit p) new m)
      else Ok m) ["x"; "y"; "z"]%string (od_sphere d) in
  let* full := if startswith s "number of electron" then let* v := mapM to_float (skipn 5 (split_ws s)) in Ok (Some v) else Ok (od_full_cell d) in
  Ok (OData (od_elastic d) (od_operations d) (od_original d) (od_symmetrized d) sph full
        (od_nsw d) (od_nelm d) (od_nbands d) (od_finished d) (ov_config d) (ov_ibrion d) (ov_iter d) (ov_steps d)).

(** 133-224: one line; [tail]: outcar[index:] *)
Definition step (tail : list str) (d : odata) (line : str) : res odata :=
  match iteration line with
  | Some (a, b) => let* x := to_int a in let* y := to_int b in Ok (count_iteration d x y)
  | None =>
      let* d := step_params d line in
      let* d := step_symmetry (py_nth tail 1) d line in
      let* d := step_elastic tail d line in
      step_magnetization tail d line
  end.
Fixpoint scan (lines : list str) (d : odata) : res odata :=
  match lines with [] => Ok d | l :: rest => let* d' := step lines d l in scan rest d' end.

(** 226-280: the run status.  Comparing an int with None is a TypeError. *)
Record status := Status { rs_nelm : option Z; rs_nsw : option Z; rs_nbands : option Z; rs_last : Z * Z; rs_finished : bool;
  rs_ionic : option bool; rs_electronic : bool; rs_consistent : bool; rs_contains : bool }.
Definition zle (k k' : Z * Z) : bool := (fst k <=? fst k')%Z.
(** sorted(nelec_steps.items(), key=...) *)
Fixpoint zinsert (x : Z * Z) (l : zdict Z) : zdict Z :=
  match l with [] => [x] | y :: r => if zle x y then x :: l else y :: zinsert x r end.
Definition zsort (l : zdict Z) : zdict Z := fold_right zinsert [] l.
Definition ionic (d : odata) (iter : Z) : res (option bool) :=
  if (ov_ibrion d <=? 0)%Z then Ok None                                        (* 259-261 *)
  else
    let* nsw := of_option TypeError (od_nsw d) in
    Ok (if (iter <? nsw)%Z then Some true                                       (* 243-247 *)
        else if (iter =? nsw)%Z && (1 <? nsw)%Z then Some false                 (* 248-250 *)
        else if (nsw <=? 1)%Z then None                                         (* 251-258 *)
        else Some false).
Definition run_status (d : odata) : res status :=
  let* iter := of_option (SysExit 600) (ov_iter d) in                           (* 227-229 *)
  let* ion := if od_finished d then ionic d (fst iter) else Ok (Some false) in
  let* nelm := of_option TypeError (od_nelm d) in
  let elec := od_finished d && (snd iter <? nelm)%Z in                          (* 263-266 *)
  let mask := map (fun kv => (nelm <=? snd kv)%Z) (zsort (ov_steps d)) in       (* 272 *)
  let consistent := (od_finished d && forallb (fun b => b) mask)
                    || (negb (od_finished d) && forallb (fun b => b) (removelast mask) && (1 <? fst iter)%Z) in   (* 273-277 *)
  Ok (Status (Some nelm) (od_nsw d) (od_nbands d) iter (od_finished d) ion elec consistent (existsb (fun b => b) mask)).

(** 391-426 _parse_timings_memory.  408: r':.*kBytes$' on a line with at most a final
    newline. *)
Definition drop_newline (l : str) : str :=
  match rev l with c :: r => if aeqb c nl then rev r else l | [] => l end.
Definition mem_line (l : str) : bool :=
  let b := rev (drop_newline l) in
  match after (rev (lit "kBytes")) b with Some r => charb ":" r | None => false end.
(** re.split(r'[: ]+', l) *)
Definition is_colon_sp (c : ascii) : bool := aeqb c ":" || aeqb c sp.
Fixpoint split_runs (f : ascii -> bool) (l : str) : list str :=
  match l with
  | [] => [[]]
  | c :: r =>
      if f c then match r with
                  | c' :: _ => if f c' then split_runs f r else [] :: split_runs f r
                  | [] => [[]; []]
                  end
      else match split_runs f r with [] => [[c]] | w :: ws => (c :: w) :: ws end
  end.
Definition timing_line (info : dict (option float)) (line : str) : res (dict (option float)) :=
  if contains line "(sec)" || contains line "(kb)" then
    let tokens := split_on ":"%char (strip line) in
    let name := join (lit "_") (map lower (removelast (split_ws (strip (hd [] tokens))))) in
    let* t := py_nth tokens 1 in
    Ok (dset name (parse_float (strip t)) info)
  else if mem_line line then
    let tokens := split_runs is_colon_sp (strip line) in
    let* t := match rev tokens with _ :: t :: _ => Ok t | _ => Exn IndexError end in
    Ok (dset (lit "mem_usage_" ++ hd [] tokens) (parse_float t) info)
  else Ok info.
(** outcar[-50:] *)
Definition last_lines {T} (n : nat) (l : list T) : list T := skipn (length l - n) l.

Record outcar := Outcar { oc_elastic : dict (option (list (list float)));
  oc_operations : two (list Z); oc_original : two (list cell_type); oc_symmetrized : two (list str);
  oc_sphere : dict sphere; oc_full_cell : option (list float);
  oc_status : status; oc_stats : dict (option float) }.
(** 116-282 *)
Definition from_list (lines : list str) : res outcar :=
  let* d := scan lines odata0 in
  let* s := run_status d in
  let* t := foldM timing_line (last_lines 50 lines) [] in
  Ok (Outcar (od_elastic d) (od_operations d) (od_original d) (od_symmetrized d) (od_sphere d) (od_full_cell d) s t).
(** 19-43, 102-114 *)
Definition outcar_init (path : source_path) (handler : source_handler) : res outcar :=
  if negb (is_some path) && negb (is_some handler) then Exn (SysExit 10)
  else let* lines := read_from_file path handler CNone in from_list lines.
