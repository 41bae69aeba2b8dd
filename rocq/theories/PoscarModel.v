(** Model of parsevasp/poscar.py (classes Poscar and Site).

    The model is written over an [arith]: a type of numbers with what the code
    does with them (float(), '<', '*', numpy's dot and inv, format).  Two
    instances are used (ArithModel.v): IEEE doubles with arbitrary dot and inv,
    and exact rationals. *)
From Coq Require Import Ascii String List NArith ZArith Bool Lia.
From Verif Require Import PyBase PyNum UtilsModel KpointsModel.
Import ListNotations.
Local Open Scope list_scope.
Local Open Scope bool_scope.

(** The number operations used by poscar.py and utils.py:245-301.  [nparse]:
    float(token), [None] is ValueError; [ndot v m]: numpy.dot(v, m) for shapes that
    match; [ninv]: numpy.linalg.inv of a square matrix, [None] is LinAlgError;
    [nfmt w p x]: '{:{w}.{p}f}'.format(x). *)
Record arith := Arith {
  num : Type;
  nparse : str -> option num;
  nneg : num -> bool;
  n1 : num;
  nmul : num -> num -> num;
  ndot : list num -> list (list num) -> list num;
  ninv : list (list num) -> option (list (list num));
  nfmt : nat -> nat -> num -> str }.

(** str.capitalize: exact on the Latin-1 range except for the initials listed at
    [upper1] *)
Definition capitalize (s : str) : str :=
  match s with [] => [] | c :: r => upper1 c :: lower r end.

(** '{:5s}': padded on the right *)
Definition pad_right (w : nat) (s : str) : str := s ++ repeat sp (w - length s).

(** str.splitlines(True) *)
Fixpoint splitlines_keep (l : str) : list str :=
  match l with
  | [] => []
  | c :: r =>
      if is_break c then
        match r with
        | c' :: r' => if aeqb c cr && aeqb c' nl then [c; c'] :: splitlines_keep r' else [c] :: splitlines_keep r
        | [] => [[c]]
        end
      else match r with
           | [] => [[c]]
           | _ => match splitlines_keep r with
                  | [] => [[c]]
                  | w :: ws => (c :: w) :: ws
                  end
           end
  end.

(** l[n], n possibly negative *)
Definition zat {A} (l : list A) (n : Z) : res A :=
  match list_index l n with Some i => py_nth l i | None => Exn IndexError end.

(** poscar[k].replace(' ', '') == '\n' *)
Definition blank_line (l : str) : bool := seqb (filter (fun c => negb (aeqb c sp)) l) [nl].

(** int(token) *)
Definition int_tok (t : str) : res Z := of_option ValueError (parse_int t).

(** poscar.py:249-256: the species of the next site.  State: slot and index. *)
Definition next_specie (spec : list str) (atoms : list Z) (st : nat * Z) : res (str * (nat * Z)) :=
  let* a := py_nth atoms (fst st) in                                          (* 251 *)
  let st := if (a <? snd st)%Z then (S (fst st), 1%Z) else st in              (* 252-253 *)
  let* s := py_nth spec (fst st) in                                           (* 254 *)
  Ok (s, (fst st, (snd st + 1)%Z)).                                           (* 280 *)

Section Model.
Variable A : arith.
Notation num := (num A).
Definition vec : Type := list num.
Definition mat : Type := list (list num).

(** poscar.py:941-975 Site.  [si_specie] is already in lower case.
    Simplification: position, velocities and predictors are one-dimensional
    sequences of numbers, selective a sequence of booleans. *)
Record site := mkSite { si_specie : str; si_position : vec; si_selective : list bool;
  si_velocities : option vec; si_predictors : option vec; si_direct : bool }.
(** 941-975 *)
Definition Site (specie : str) (position : vec) (selective : option (list bool)) (velocities predictors : option vec) (direct : bool) : site :=
  mkSite (lower specie) position (match selective with None => [true; true; true] | Some f => f end) velocities predictors direct.
(** 977-989 *)
Definition get_specie (s : site) : str := capitalize (si_specie s).

(** A dictionary given for a site (poscar.py:153-163); [None]: the key is absent. *)
Record sdict := SDictionary { sd_specie : option str; sd_position : option vec; sd_selective : option (list bool);
  sd_velocities : option (option vec); sd_predictors : option (option vec); sd_direct : option bool }.

(** Elements of the list of sites, and the values in the entries dictionary *)
Inductive sv := SSite (s : site) | SDict (d : sdict) | SOther.
Inductive pval := PNone | PStr (s : str) | PMat (m : mat) | PSites (l : list sv) | PSite (s : site) | POther.
Definition pentries := dict pval.
Definition pkey (es : pentries) (k : string) : res pval := of_option KeyError (dget (lit k) es).

(** ** Linear algebra: utils.py:245-301, poscar.py:686-738 *)
(** numpy.dot(vector, matrix) *)
Definition dot (v : vec) (m : mat) : res vec :=
  if (length v =? length m)%nat then Ok (ndot A v m) else Exn ValueError.
Definition square (m : mat) : bool := forallb (fun r => (length r =? length m)%nat) m.
Definition inv (m : mat) : res mat :=
  if square m then of_option LinAlgError (ninv A m) else Exn LinAlgError.
Definition to_direct (v : vec) (m : mat) : res vec := let* i := inv m in dot v i.
Definition to_cart (v : vec) (m : mat) : res vec := dot v m.
(** with the value found under 'unitcell'; what is not an ndarray is outside the model *)
Definition unitcell_of (v : pval) : res mat := match v with PMat m => Ok m | _ => Exn OutOfModel end.

(** ** Reading: poscar.py:174-356 *)
Definition num_tok (t : str) : res num := of_option ValueError (nparse A t).
(** three numbers at the beginning of a line, each times [f] *)
Definition num3 (line : str) (f : num -> num) : res vec :=
  let ws := split_ws line in
  let* a := py_nth ws 0 in let* x := num_tok a in
  let* b := py_nth ws 1 in let* y := num_tok b in
  let* c := py_nth ws 2 in let* z := num_tok c in
  Ok [f x; f y; f z].
(** 269-278: the selective flags *)
Definition flags3 (line : str) : res (list bool) :=
  let ws := split_ws line in
  let flag i := let* t := py_nth ws i in Ok (negb (substrb (lit "f") (lower t))) in
  let* a := flag 3%nat in let* b := flag 4%nat in let* c := flag 5%nat in Ok [a; b; c].

(** 249-283: species, position and flags of [k] sites, the first on line [i] *)
Fixpoint read_sites (ls : list str) (spec : list str) (atoms : list Z) (direct selective : bool) (scaling : num) (cell : mat)
    (i k : nat) (st : nat * Z) : res (list (str * vec * list bool)) :=
  match k with
  | O => Ok []
  | S k' =>
      let* (specie, st') := next_specie spec atoms st in
      let* line := py_nth ls i in
      let* p := num3 line (fun x => nmul A x (if direct then n1 A else scaling)) in     (* 258-266 *)
      let* p := if direct then Ok p else to_direct p cell in                            (* 267-269 *)
      let* f := if selective then flags3 line else Ok [true; true; true] in             (* 270-278 *)
      let* r := read_sites ls spec atoms direct selective scaling cell (S i) k' st' in
      Ok ((specie, p, f) :: r)
  end.
(** a block of [n] lines of three numbers from line [start] *)
Definition read_block (ls : list str) (start n : nat) : res (list vec) :=
  mapM (fun i => let* l := py_nth ls i in num3 l (fun x => x)) (seq start n).

(** 226-247: header; result: selective, direct, first line of positions *)
Definition read_mode (ls : list str) : res (bool * bool * nat) :=
  let* l7 := py_nth ls 7 in let* c7 := py_nth l7 0 in
  if aeqb (lower1 c7) "s" then
    let* l8 := py_nth ls 8 in let* c8 := py_nth l8 0 in
    Ok (true, aeqb (lower1 c8) "d", 9%nat)
  else Ok (false, aeqb (lower1 c7) "d", 8%nat).

(** 285-307: what follows the positions; [p]: the line after the last position.
    Result: velocities present, their coordinates are direct, predictors only *)
Definition read_tail_mode (ls : list str) (p : Z) (direct : bool) : res (bool * bool * bool) :=
  let len := Z.of_nat (length ls) in
  let* (v, d, pr) :=
    if (p <? len)%Z then
      let* l := zat ls p in let* c := py_nth l 0 in
      if aeqb (lower1 c) "d" then Ok (true, direct, false)
      else if aeqb (lower1 c) "c" then Ok (true, false, false)
      else Ok (false, direct, blank_line l)
    else Ok (false, direct, false) in
  if (p + 1 <? len)%Z then
    let* l := zat ls (p + 1) in let* t := py_nth (split_ws l) 0 in
    if is_number t then Ok (v, d, pr) else Exn (SysExit 302)
  else Ok (v, d, false).

(** 308-319: [n] velocities from line [start] *)
Definition read_velocities (ls : list str) (start n : nat) (direct : bool) (cell : mat) : res (list vec) :=
  mapM (fun i => let* l := py_nth ls i in let* v := num3 l (fun x => x) in
                 if direct then Ok v else to_direct v cell) (seq start n).
(** 320-333: predictors after the velocities, [q]: the line after the last velocity *)
Definition read_predictors (ls : list str) (q : Z) (n : nat) : res (option (list vec)) :=
  if (q <? Z.of_nat (length ls))%Z then
    let* l := zat ls q in
    if blank_line l then
      let* l' := zat ls (q + 1) in let* t := py_nth (split_ws l') 0 in
      if is_number t then let* b := read_block ls (Z.to_nat (q + 1)) n in Ok (Some b) else Ok None
    else Ok None
  else Ok None.

(** the i-th element of an optional block *)
Definition opt_nth (o : option (list vec)) (i : nat) : option vec :=
  match o with Some l => nth_error l i | None => None end.
(** 334-350: the Site objects *)
Definition build_sites (raw : list (str * vec * list bool)) (vel pre : option (list vec)) : list sv :=
  map (fun ir => let '(i, (specie, p, f)) := ir in
                 SSite (Site specie p (Some f) (opt_nth vel i) (opt_nth pre i) true))
      (combine (seq 0 (length raw)) raw).

(** numpy.asarray of a list of rows: ValueError when ragged *)
Definition asarray (rows : list vec) : res mat :=
  match rows with
  | [] => Ok []
  | r :: _ => if forallb (fun s => (length s =? length r)%nat) rows then Ok rows else Exn ValueError
  end.

(** 174-356 _from_list *)
Definition from_list (ls : list str) : res pentries :=
  let* l0 := py_nth ls 0 in                                                   (* 197 *)
  let comment := strip (filter (fun c => negb (aeqb c "#")) l0) in
  let* l5 := py_nth ls 5 in                                                   (* 200 *)
  let* l1 := py_nth ls 1 in let* t := py_nth (split_ws l1) 0 in
  let* scaling := num_tok t in                                                (* 207 *)
  if nneg A scaling then Exn (SysExit 307)                                    (* 208-210 *)
  else if is_numbers l5 then Exn (SysExit 301)                                (* 242-244 *)
  else
    let* l2 := py_nth ls 2 in let* r2 := mapM num_tok (split_ws l2) in        (* 218-220 *)
    let* l3 := py_nth ls 3 in let* r3 := mapM num_tok (split_ws l3) in
    let* l4 := py_nth ls 4 in let* r4 := mapM num_tok (split_ws l4) in
    let* cell := asarray [r2; r3; r4] in                                      (* 221 *)
    let cell := map (map (nmul A scaling)) cell in                            (* 223 *)
    let spec := split_ws l5 in                                                (* 224 *)
    let* l6 := py_nth ls 6 in let* atoms := mapM int_tok (split_ws l6) in     (* 225 *)
    let nions := fold_left Z.add atoms 0%Z in                                 (* 226-227 *)
    let* (selective, direct, first) := read_mode ls in                        (* 228-240 *)
    let n := Z.to_nat nions in
    let* raw := read_sites ls spec atoms direct selective scaling cell first n (0%nat, 1%Z) in   (* 246-284 *)
    let p := (nions + Z.of_nat first)%Z in                                    (* 286 *)
    let* (hasv, vdirect, predictor) := read_tail_mode ls p direct in          (* 287-307 *)
    let* (vel, pre) :=
      if hasv then
        let* v := read_velocities ls (Z.to_nat (p + 1)) n vdirect cell in     (* 308-319 *)
        let* q := read_predictors ls (nions + (p + 1)) n in                   (* 320-333 *)
        Ok (Some v, q)
      else if predictor then
        let* b := read_block ls (Z.to_nat (p + 1)) n in Ok (None, Some b)     (* 337-344 *)
      else Ok (None, None) in
    Ok [(lit "comment", PStr comment); (lit "unitcell", PMat cell); (lit "sites", PSites (build_sites raw vel pre))].

(** ** The dictionary source: poscar.py:142-172 *)
(** one element.  A Site in cartesian coordinates is converted (in place); for a
    dictionary a Site is built and dropped: line 163 rebinds the loop variable
    only. *)
Definition from_dict_site (cell : res mat) (v : sv) : res sv :=
  match v with
  | SSite s =>
      if si_direct s then Ok v
      else
        let* m := cell in
        let* p := to_direct (si_position s) m in
        let* w := match si_velocities s with Some w => let* x := to_direct w m in Ok (Some x) | None => Ok None end in
        Ok (SSite (mkSite (si_specie s) p (si_selective s) w (si_predictors s) true))
  | SDict d =>
      let* direct := of_option KeyError (sd_direct d) in
      let* p := of_option KeyError (sd_position d) in
      let* w := of_option KeyError (sd_velocities d) in
      let* _ := if direct then Ok tt
                else let* m := cell in let* _ := to_direct p m in
                     match w with Some x => let* _ := to_direct x m in Ok tt | None => Ok tt end in
      let* _ := of_option KeyError (sd_specie d) in
      let* _ := of_option KeyError (sd_selective d) in
      let* _ := of_option KeyError (sd_predictors d) in
      Ok (SDict d)
  | SOther => Exn TypeError
  end.
Definition from_dict (es : pentries) : res pentries :=
  let* s := pkey es "sites" in
  let cell := let* u := pkey es "unitcell" in unitcell_of u in
  match s with
  | PSites l => let* l' := mapM (from_dict_site cell) l in Ok (dset (lit "sites") (PSites l') es)
  | PStr [] | PMat [] => Ok es
  | PMat _ => Exn IndexError
  | _ => Exn TypeError
  end.

(** ** Checks: poscar.py:435-597 *)
(** 446-459 *)
Definition allowed_keys : list str := map lit ["comment"; "unitcell"; "sites"]%string.
Definition check_allowed (entry : str) : res unit :=
  if existsb (fun k => substrb k entry) allowed_keys then Ok tt else Exn (SysExit 305).
(** a value given, or the one in the entries.  The error branch for a missing key
    (e.g. 475-477) itself raises KeyError, as the message table has no such key. *)
Definition arg_or (es : pentries) (k : string) (v : pval) : res pval :=
  match v with PNone => pkey es k | _ => Ok v end.
Definition cell_ok (v : pval) : bool :=
  match v with PMat [[_; _; _]; [_; _; _]; [_; _; _]] => true | _ => false end.
(** 461-486 *)
Definition check_unitcell (es : pentries) (v : pval) : res unit :=
  let* u := arg_or es "unitcell" v in if cell_ok u then Ok tt else Exn (SysExit 13).
(** 488-512 *)
Definition check_comment (es : pentries) (v : pval) : res unit :=
  let* c := arg_or es "comment" v in
  let* e := pkey es "comment" in
  match e with
  | PNone => Ok tt
  | _ => match c with PStr _ => Ok tt | _ => Exn (SysExit 13) end
  end.
(** 514-534 *)
Definition check_sites (es : pentries) (v : pval) : res unit :=
  let* s := arg_or es "sites" v in match s with PSites _ => Ok tt | _ => Exn (SysExit 13) end.
(** 589-597 *)
Definition validate (es : pentries) : res unit :=
  let* _ := check_comment es PNone in
  let* _ := check_unitcell es PNone in
  check_sites es PNone.
(** 536-565 *)
Definition check_site (es : pentries) (v : pval) : res unit :=
  match v with
  | PNone => let* s := pkey es "sites" in
             match s with
             | PSites l => if forallb (fun x => match x with SSite _ => true | _ => false end) l then Ok tt else Exn (SysExit 13)
             | _ => Exn TypeError
             end
  | PSite _ => Ok tt
  | _ => Exn (SysExit 13)
  end.
(** 567-587; [INot]: not an int *)
Inductive index := IInt (z : Z) | INot.
Definition check_site_number (es : pentries) (n : index) : res unit :=
  match n with
  | INot => Exn (SysExit 13)
  | IInt z => let* s := pkey es "sites" in
              match s with
              | PSites l => if (Z.of_nat (length l) - 1 <? z)%Z then Exn (SysExit 304) else Ok tt
              | _ => Exn TypeError
              end
  end.

(** ** Edits: poscar.py:358-417 *)
Definition as_element (v : pval) : sv := match v with PSite s => SSite s | _ => SOther end.
Definition modify (es : pentries) (entry : str) (v : pval) (n : option index) : res pentries :=
  let* _ := check_allowed entry in
  match n with
  | Some i =>
      let* _ := check_site es v in
      let* _ := check_site_number es i in
      let* s := pkey es "sites" in
      match i, s with
      | IInt z, PSites l =>
          match list_index l z with
          | Some j => Ok (dset (lit "sites") (PSites (list_set l j (as_element v))) es)
          | None => Exn IndexError
          end
      | _, _ => Exn TypeError
      end
  | None =>
      let* _ := if seqb entry (lit "sites") then check_sites es v else Ok tt in
      let* _ := if seqb entry (lit "comment") then check_comment es v else Ok tt in
      let* _ := if seqb entry (lit "unitcell") then check_unitcell es v else Ok tt in
      Ok (dset entry v es)
  end.
Definition delete_site (es : pentries) (n : index) : res pentries :=
  let* _ := check_sites es PNone in
  let* _ := check_site_number es n in
  let* s := pkey es "sites" in
  match n, s with
  | IInt z, PSites l =>
      match list_index l z with
      | Some j => Ok (dset (lit "sites") (PSites (list_del l j)) es)
      | None => Exn IndexError
      end
  | _, _ => Exn TypeError
  end.

(** ** Grouping: poscar.py:599-679 *)
(** a site ready to be written: species, position, flags, velocities, predictors *)
Record wsite := WSite { ws_specie : str; ws_position : vec; ws_selective : list bool;
  ws_velocities : option vec; ws_predictors : option vec }.
(** 621-643 *)
Definition wsite_of (v : sv) : res wsite :=
  match v with
  | SSite s => if si_direct s
               then Ok (WSite (get_specie s) (si_position s) (si_selective s) (si_velocities s) (si_predictors s))
               else Exn (SysExit 306)
  | _ => Exn AttributeError
  end.
(** Counter(species): number of occurrences, in order of first occurrence *)
Definition count (x : str) (l : list str) : nat := length (filter (seqb x) l).
Fixpoint uniq (seen l : list str) : list str :=
  match l with
  | [] => []
  | x :: r => if smem x seen then uniq seen r else x :: uniq (x :: seen) r
  end.
(** sorted(keys, key=f): stable *)
Fixpoint insert_by (f : str -> nat) (x : str) (l : list str) : list str :=
  match l with
  | [] => [x]
  | y :: r => if (f x <=? f y)%nat then x :: l else y :: insert_by f x r
  end.
Fixpoint sort_by (f : str -> nat) (l : list str) : list str :=
  match l with [] => [] | x :: r => insert_by f x (sort_by f r) end.
(** 668-679: runs of equal species *)
Fixpoint runs (l : list str) : list (str * nat) :=
  match l with
  | [] => []
  | x :: r => match runs r with
              | (y, n) :: t => if seqb x y then (x, S n) :: t else (x, 1%nat) :: (y, n) :: t
              | [] => [(x, 1%nat)]
              end
  end.
Definition group_sites (conserve : bool) (sites : list wsite) : list wsite * list (str * nat) :=
  let species := map ws_specie sites in
  if conserve then (sites, runs species)
  else
    let keys := sort_by (fun k => count k species) (uniq [] species) in        (* 645-655 *)
    (flat_map (fun k => filter (fun s => seqb k (ws_specie s)) sites) keys,     (* 658-660 *)
     map (fun k => (k, count k species)) keys).

(** ** Writing: poscar.py:829-935 *)
Definition num_text (prec : nat) (x : num) : str := nfmt A (prec + 4) prec x.
Definition line3 (prec : nat) (v : vec) : res str :=
  let* x := py_nth v 0 in let* y := py_nth v 1 in let* z := py_nth v 2 in
  Ok (join [sp] (map (num_text prec) [x; y; z])).
(** 850-857 *)
Definition compound (groups : list (str * nat)) : str :=
  lit "Compound: " ++
  flat_map (fun g => capitalize (fst g) ++ (if (snd g =? 1)%nat then [] else str_of_Z (Z.of_nat (snd g)))) groups ++ lit ".".
(** 858-864 *)
Definition comment_text (groups : list (str * nat)) (c : pval) : res str :=
  match c with
  | PNone => Ok (lit "# " ++ compound groups)
  | PStr t => if substrb (compound groups) t then Ok (lit "# " ++ t)
              else Ok (lit "# " ++ compound groups ++ lit " Old comment: " ++ t)
  | _ => Exn TypeError
  end.
(** 876-885 *)
Definition species_text (groups : list (str * nat)) : str :=
  rstrip (flat_map (fun g => pad_right 5 (capitalize (fst g)) ++ [sp]) groups).
Definition counts_text (groups : list (str * nat)) : str :=
  rstrip (flat_map (fun g => fmt_d 5 (Z.of_nat (snd g)) ++ [sp]) groups).
(** 895-908: the flags of a site *)
Fixpoint mark (flags : list bool) (i : nat) (sel : list str) : res (list str) :=
  match flags with
  | [] => Ok sel
  | f :: r => if f then mark r (S i) sel
              else if (i <? length sel)%nat then mark r (S i) (list_set sel i (lit "F")) else Exn IndexError
  end.
Definition flags_text (flags : list bool) : res str :=
  let* sel := mark flags 0 [lit "T"; lit "T"; lit "T"] in Ok ([sp] ++ join [sp] sel).
(** what is written for a position or velocity *)
Definition shown (write_direct : bool) (cell : mat) (v : vec) : res vec :=
  if write_direct then Ok v else to_cart (firstn 3 v) cell.
Definition label (write_direct : bool) : str := if write_direct then lit "Direct" else lit "Cartesian".

Definition position_text (prec : nat) (wd selective : bool) (cell : mat) (s : wsite) : res str :=
  let* v := shown wd cell (ws_position s) in
  let* t := line3 prec v in
  let* f := if selective then flags_text (ws_selective s) else Ok [] in
  Ok (t ++ f).
Definition velocity_text (prec : nat) (wd : bool) (cell : mat) (s : wsite) : res str :=
  match ws_velocities s with
  | None => Exn TypeError
  | Some w => let* v := shown wd cell w in line3 prec v
  end.
Definition predictor_text (prec : nat) (s : wsite) : res str :=
  match ws_predictors s with None => Exn TypeError | Some w => line3 prec w end.

(** the lines written, without their newlines *)
Definition write_lines (prec : nat) (conserve wd : bool) (es : pentries) : res (list str) :=
  let* _ := validate es in                                                     (* 838 *)
  let* co := pkey es "comment" in
  let* u := pkey es "unitcell" in let* cell := unitcell_of u in
  let* s := pkey es "sites" in
  let* l := match s with PSites l => Ok l | _ => Exn TypeError end in
  let* sites := mapM wsite_of l in
  let selective := existsb (fun s => existsb negb (ws_selective s)) sites in
  let hasv := existsb (fun s => is_some (ws_velocities s)) sites in
  let hasp := existsb (fun s => is_some (ws_predictors s)) sites in
  let (sites, groups) := group_sites conserve sites in
  let* c := comment_text groups co in
  let* rows := mapM (line3 prec) cell in                                       (* 868-874 *)
  let* pos := mapM (position_text prec wd selective cell) sites in             (* 892-909 *)
  let* vel := if hasv then let* v := mapM (velocity_text prec wd cell) sites in Ok (label wd :: v) else Ok [] in   (* 911-926 *)
  let* pre := if hasp then let* v := mapM (predictor_text prec) sites in Ok ([] :: v) else Ok [] in                (* 928-936 *)
  Ok ([c; num_text prec (n1 A)] ++ rows ++ [species_text groups; counts_text groups]
      ++ (if selective then [lit "Selective dynamics"] else []) ++ [label wd] ++ pos ++ vel ++ pre).
(** 808-827 *)
Definition get_string (prec : nat) (conserve wd : bool) (es : pentries) : res str :=
  let* ls := write_lines prec conserve wd es in Ok (concat (map (fun l => l ++ [nl]) ls)).

(** ** Constructor: poscar.py:36-120 *)
Record pargs := PArgs { pa_string : option str; pa_dict : option pentries; pa_path : source_path; pa_handler : source_handler }.
Definition poscar_init (a : pargs) : res pentries :=
  let s := is_some (pa_string a) in let d := is_some (pa_dict a) in
  let p := is_some (pa_path a) in let h := is_some (pa_handler a) in
  if (s && d) || (s && p) || (d && p && h) then Exn (SysExit 10)              (* 82-87 *)
  else if negb s && negb d && negb p && negb h then Exn (SysExit 10)          (* 88-94 *)
  else
    let* d1 := if p || h then                                                  (* 103-105 *)
                 let* ls := read_from_file (pa_path a) (pa_handler a) CNone in
                 let* es := from_list ls in Ok (Some es)
               else Ok (pa_dict a) in
    let* d2 := match pa_string a with                                          (* 107-109 *)
               | Some txt => let* es := from_list (splitlines_keep txt) in Ok (Some es)
               | None => Ok d1
               end in
    match d2 with
    | Some es => let* es := from_dict es in let* _ := validate es in Ok es     (* 111-120 *)
    | None => Exn TypeError                                                    (* unreachable *)
    end.
Definition poscar_of_string (txt : str) := poscar_init (PArgs (Some txt) None None None).
Definition poscar_of_file (txt : str) := poscar_init (PArgs None None (Some (Some txt)) None).
Definition poscar_of_handler (txt : str) := poscar_init (PArgs None None None (Some txt)).
Definition poscar_of_dict (d : pentries) := poscar_init (PArgs None (Some d) None None).

(** ** Accessors: poscar.py:740-806 *)
(** 740-762: a present key gives an object without get_value *)
Definition get (es : pentries) (k : str) : res pval :=
  match dget k es with None => Ok PNone | Some _ => Exn AttributeError end.
(** 764-806 get_dict(direct) *)
Definition dict_site (direct : bool) (cell : res mat) (v : sv) : res sv :=
  match v with
  | SSite s =>
      let* (p, w) :=
        if direct then Ok (si_position s, si_velocities s)
        else let* m := cell in
             let* p := to_cart (si_position s) m in
             let* w := match si_velocities s with Some w => let* x := to_cart w m in Ok (Some x) | None => Ok None end in
             Ok (p, w) in
      Ok (SDict (SDictionary (Some (capitalize (get_specie s))) (Some p) (Some (si_selective s)) (Some w)
                             (Some (si_predictors s)) (Some (if direct then si_direct s else false))))
  | _ => Exn AttributeError
  end.
Definition get_dict (es : pentries) (direct : bool) : res pentries :=
  let cell := let* u := pkey es "unitcell" in unitcell_of u in
  mapM (fun kv => if seqb (fst kv) (lit "sites")
                  then match snd kv with
                       | PSites l => let* l' := mapM (dict_site direct cell) l in Ok (fst kv, PSites l')
                       | _ => Exn TypeError
                       end
                  else Ok kv) es.

(** A history of edits; a refused edit raises and leaves the object as it was. *)
Inductive pop := OModify (entry : str) (v : pval) (n : option index) | ODelete (n : index).
Definition pstep (es : pentries) (o : pop) : pentries :=
  match (match o with OModify e v n => modify es e v n | ODelete n => delete_site es n end) with
  | Ok es' => es' | Exn _ => es
  end.
Definition prun (es : pentries) (ops : list pop) : pentries := fold_left pstep ops es.
End Model.
