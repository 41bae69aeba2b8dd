(** Model of parsevasp/stream.py (whole file) and of the configuration stream.yml.
    The regular expression engine is a parameter: [R] are compiled patterns, [compile]
    is re.compile on text ([None]: re.error), [search] is pattern.search(line) being a
    match.  A concrete engine for the patterns made of plain characters and dots (every
    pattern of stream.yml is one) is given at the end. *)
From Coq Require Import Ascii String List NArith ZArith Bool Lia.
From Verif Require Import PyBase UtilsModel.
Import ListNotations.
Local Open Scope list_scope.
Local Open Scope bool_scope.

Section Stream.
Variable R : Type.
Variable compile : str -> option R.
Variable search : R -> str -> bool.

(** Python values found in a configuration entry.  [SOther]: any object that is not
    None, a bool, a string or a compiled pattern. *)
Inductive sval := SNone | SBool (b : bool) | SStr (s : str) | SRegex (r : R) | SOther.
(** a configuration: shortname -> keyword arguments.  Simplification: shortnames are
    strings, entries are dictionaries with string keys. *)
Definition sconfig := dict (dict sval).

(** stream.py:249-422 VaspStream: the attributes after construction.  [vs_regex]:
    whatever the regex property holds (a compiled pattern, or the object passed). *)
Record vstream := mkVS { vs_short : str; vs_kind : str; vs_regex : sval; vs_message : str;
  vs_suggestion : option str; vs_location : str; vs_recover : bool; vs_inverse : bool }.

(** 252, 253 *)
Definition allowed_streams : list str := map lit ["ERROR"; "WARNING"]%string.
Definition allowed_locations : list str := map lit ["STDOUT"; "STDERR"]%string.
(** 255-265: names of the parameters besides shortname *)
Definition vs_params : list str := map lit ["kind"; "regex"; "message"; "suggestion"; "location"; "recover"; "inverse"]%string.

(** VaspStream(shortname=shortname, **config), 255-299 and the setters 317-422.
    Keyword binding first: an unknown keyword, or a missing kind, regex or message, is
    a TypeError; then the attributes are set in the order of 288-299. *)
Definition vasp_stream (shortname : str) (config : dict sval) : res vstream :=
  if negb (forallb (fun k => smem k vs_params) (dkeys config)) then Exn TypeError else
  let* kind := of_option TypeError (dget (lit "kind") config) in
  let* regex := of_option TypeError (dget (lit "regex") config) in
  let* message := of_option TypeError (dget (lit "message") config) in
  let suggestion := match dget (lit "suggestion") config with Some v => v | None => SNone end in
  let location := match dget (lit "location") config with Some v => v | None => SStr (lit "STDOUT") end in
  let recover := match dget (lit "recover") config with Some v => v | None => SBool false end in
  let inverse := match dget (lit "inverse") config with Some v => v | None => SBool false end in
  let* kind := match kind with                                                 (* 330-342 *)
               | SStr k => if smem (upper k) allowed_streams then Ok k else Exn ValueError
               | _ => Exn ValueError end in
  let* regex := match regex with                                               (* 290-293, 349-355 *)
                | SStr s => let* r := of_option ReError (compile s) in Ok (SRegex r)
                | v => Ok v end in
  let* message := match message with SStr s => Ok s | _ => Exn ValueError end in   (* 362-367 *)
  let* suggestion := match suggestion with                                     (* 374-381 *)
                     | SNone => Ok None | SStr s => Ok (Some s) | _ => Exn ValueError end in
  let* location := match location with                                         (* 388-393 *)
                   | SStr s => if smem s allowed_locations then Ok s else Exn ValueError
                   | _ => Exn ValueError end in
  let* recover := match recover with SBool b => Ok b | _ => Exn ValueError end in  (* 400-405 *)
  let* inverse := match inverse with SBool b => Ok b | _ => Exn ValueError end in  (* 417-422 *)
  Ok (mkVS shortname kind regex message suggestion location recover inverse).

(** 424-435 check_line: a copy of the trigger when its pattern is found.  The copy is
    built from attributes the setters have accepted, so it equals the trigger. *)
Definition check_line (t : vstream) (line : str) : res (option vstream) :=
  match vs_regex t with
  | SRegex r => Ok (if search r line then Some t else None)
  | _ => Exn AttributeError
  end.

(** stream.yml *)
Definition default_config : sconfig := [
  (lit "nostart", [(lit "kind", SStr (lit "ERROR")); (lit "location", SStr (lit "STDOUT")); (lit "message", SStr (lit "VASP has not been started.")); (lit "recover", SBool false); (lit "regex", SStr (lit "vasp.")); (lit "inverse", SBool true); (lit "suggestion", SStr (lit ""))]);
  (lit "ibzkpt", [(lit "kind", SStr (lit "ERROR")); (lit "location", SStr (lit "STDOUT")); (lit "message", SStr (lit "Error with the k-points.")); (lit "recover", SBool true); (lit "regex", SStr (lit "internal error in subroutine IBZKPT")); (lit "suggestion", SStr (lit ""))]);
  (lit "brmix", [(lit "kind", SStr (lit "ERROR")); (lit "location", SStr (lit "STDOUT")); (lit "message", SStr (lit "Error in BRMIX.")); (lit "recover", SBool false); (lit "regex", SStr (lit "BRMIX: very serious problems")); (lit "suggestion", SStr (lit ""))]);
  (lit "cnormn", [(lit "kind", SStr (lit "ERROR")); (lit "location", SStr (lit "STDOUT")); (lit "message", SStr (lit "Error in CNORMN.")); (lit "recover", SBool false); (lit "regex", SStr (lit "WARNING: CNORMN")); (lit "suggestion", SStr (lit ""))]);
  (lit "denmp", [(lit "kind", SStr (lit "ERROR")); (lit "location", SStr (lit "STDOUT")); (lit "message", SStr (lit "Error in DENMP.")); (lit "recover", SBool false); (lit "regex", SStr (lit "WARNING: DENMP: can't reach specified precision")); (lit "suggestion", SStr (lit ""))]);
  (lit "dentet", [(lit "kind", SStr (lit "ERROR")); (lit "location", SStr (lit "STDOUT")); (lit "message", SStr (lit "Error with DENTET.")); (lit "recover", SBool false); (lit "regex", SStr (lit "WARNING: DENTET")); (lit "suggestion", SStr (lit ""))]);
  (lit "edddav_zhegv", [(lit "kind", SStr (lit "ERROR")); (lit "location", SStr (lit "STDOUT")); (lit "message", SStr (lit "Error in ZHEGV from EDDAV.")); (lit "recover", SBool false); (lit "regex", SStr (lit "Error EDDDAV: Call to ZHEGV failed")); (lit "suggestion", SStr (lit ""))]);
  (lit "eddrmm_zhegv", [(lit "kind", SStr (lit "ERROR")); (lit "location", SStr (lit "STDOUT")); (lit "message", SStr (lit "Error in EDDRMM.")); (lit "recover", SBool false); (lit "regex", SStr (lit "WARNING in EDDRMM: call to ZHEGV failed")); (lit "suggestion", SStr (lit ""))]);
  (lit "edwav", [(lit "kind", SStr (lit "ERROR")); (lit "location", SStr (lit "STDOUT")); (lit "message", SStr (lit "Error in EDWAV.")); (lit "recover", SBool false); (lit "regex", SStr (lit "EDWAV: internal error")); (lit "suggestion", SStr (lit ""))]);
  (lit "fexcp", [(lit "kind", SStr (lit "ERROR")); (lit "location", SStr (lit "STDOUT")); (lit "message", SStr (lit "Error in FEXCP.")); (lit "recover", SBool false); (lit "regex", SStr (lit "ERROR FEXCP: supplied Exchange")); (lit "suggestion", SStr (lit ""))]);
  (lit "fock_acc", [(lit "kind", SStr (lit "ERROR")); (lit "location", SStr (lit "STDERR")); (lit "message", SStr (lit "Error in FOCK_ACC.")); (lit "recover", SBool false); (lit "regex", SStr (lit "internal error in FOCK_ACC")); (lit "suggestion", SStr (lit ""))]);
  (lit "invgrp", [(lit "kind", SStr (lit "ERROR")); (lit "location", SStr (lit "STDOUT")); (lit "message", SStr (lit "Error in INVGRP.")); (lit "recover", SBool false); (lit "regex", SStr (lit "internal error in subroutine INVGRP")); (lit "suggestion", SStr (lit ""))]);
  (lit "kpoints_trans", [(lit "kind", SStr (lit "ERROR")); (lit "location", SStr (lit "STDERR")); (lit "message", SStr (lit "Error in GENERATE_KPOINTS_TRANS.")); (lit "recover", SBool false); (lit "regex", SStr (lit "internal error in GENERATE_KPOINTS_TRANS")); (lit "suggestion", SStr (lit ""))]);
  (lit "non_collinear", [(lit "kind", SStr (lit "ERROR")); (lit "location", SStr (lit "STDOUT")); (lit "message", SStr (lit "Using a collinear spin executable for a non-colinear calculation.")); (lit "recover", SBool false); (lit "regex", SStr (lit "ERROR: non collinear calculations require")); (lit "suggestion", SStr (lit "Please make sure to use the VASP executable that has been compiled with the non-colinear functionality (ncl flavor, consult build instructions)"))]);
  (lit "not_hermitian", [(lit "kind", SStr (lit "ERROR")); (lit "location", SStr (lit "STDOUT")); (lit "message", SStr (lit "Sub-space matrix not Hermitian in DAV.")); (lit "recover", SBool false); (lit "regex", SStr (lit "not Hermitian in DAV")); (lit "suggestion", SStr (lit ""))]);
  (lit "psmaxn", [(lit "kind", SStr (lit "ERROR")); (lit "location", SStr (lit "STDOUT")); (lit "message", SStr (lit "Error in PSMAXN.")); (lit "recover", SBool false); (lit "regex", SStr (lit "PSMAXN for non-local potential too small")); (lit "suggestion", SStr (lit ""))]);
  (lit "pssyevx", [(lit "kind", SStr (lit "ERROR")); (lit "location", SStr (lit "STDOUT")); (lit "message", SStr (lit "Error in PSSYEVX.")); (lit "recover", SBool false); (lit "regex", SStr (lit "Error in subspace rotation PSSYEVX")); (lit "suggestion", SStr (lit ""))]);
  (lit "pzstein", [(lit "kind", SStr (lit "ERROR")); (lit "location", SStr (lit "STDOUT")); (lit "message", SStr (lit "Error in PZSETIN")); (lit "recover", SBool false); (lit "regex", SStr (lit "PZSTEIN parameter number had an illegal value")); (lit "suggestion", SStr (lit ""))]);
  (lit "real_optlay", [(lit "kind", SStr (lit "ERROR")); (lit "location", SStr (lit "STDOUT")); (lit "message", SStr (lit "Error in REAL_OPTLAY.")); (lit "recover", SBool false); (lit "regex", SStr (lit "REAL_OPTLAY: internal error")); (lit "suggestion", SStr (lit ""))]);
  (lit "rhosyg", [(lit "kind", SStr (lit "ERROR")); (lit "location", SStr (lit "STDOUT")); (lit "message", SStr (lit "Error in RHOSYG")); (lit "recover", SBool false); (lit "regex", SStr (lit "RHOSYG: internal error")); (lit "suggestion", SStr (lit ""))]);
  (lit "rspher", [(lit "kind", SStr (lit "ERROR")); (lit "location", SStr (lit "STDOUT")); (lit "message", SStr (lit "Error in RSPHER")); (lit "recover", SBool false); (lit "regex", SStr (lit "Internal ERROR RSPHER.")); (lit "suggestion", SStr (lit ""))]);
  (lit "set_indpw_full", [(lit "kind", SStr (lit "ERROR")); (lit "location", SStr (lit "STDOUT")); (lit "message", SStr (lit "Error in INDPW: insufficient memory.")); (lit "recover", SBool false); (lit "regex", SStr (lit "internal error in SET_INDPW_FULL: insufficient")); (lit "suggestion", SStr (lit ""))]);
  (lit "sgrcon", [(lit "kind", SStr (lit "ERROR")); (lit "location", SStr (lit "STDOUT")); (lit "message", SStr (lit "Error in SGRCON")); (lit "recover", SBool false); (lit "regex", SStr (lit "internal error in subroutine SGRCON")); (lit "suggestion", SStr (lit ""))]);
  (lit "zbrent", [(lit "kind", SStr (lit "ERROR")); (lit "location", SStr (lit "STDOUT")); (lit "message", SStr (lit "Error in ZBRENT")); (lit "recover", SBool false); (lit "regex", SStr (lit "ZBRENT: fatal error in bracketing")); (lit "suggestion", SStr (lit ""))]);
  (lit "no_potim", [(lit "kind", SStr (lit "ERROR")); (lit "location", SStr (lit "STDOUT")); (lit "message", SStr (lit "NSW specified, but no POTIM or IBRION set.")); (lit "recover", SBool false); (lit "regex", SStr (lit "Fatal error! IBRION=0, but no entry for POTIM on file INCAR. MUST be specified!!")); (lit "suggestion", SStr (lit ""))]);
  (lit "magmom", [(lit "kind", SStr (lit "ERROR")); (lit "location", SStr (lit "STDOUT")); (lit "message", SStr (lit "MAGMON is specified, but ISPIN is set to one.")); (lit "recover", SBool false); (lit "regex", SStr (lit "Error reading item 'MAGMOM' from file INCAR")); (lit "suggestion", SStr (lit ""))]);
  (lit "bandocc", [(lit "kind", SStr (lit "ERROR")); (lit "location", SStr (lit "STDOUT")); (lit "message", SStr (lit "The topmost band is occupied.")); (lit "recover", SBool false); (lit "regex", SStr (lit "TOO FEW BANDS")); (lit "suggestion", SStr (lit ""))])].

(** 114-123 _load_config: stream_config.update(self._config) *)
Definition load_config (config : option sconfig) : sconfig :=
  match config with
  | None => default_config
  | Some c => fold_left (fun d e => dset (fst e) (snd e) d) c default_config
  end.

(** 136-147 _set_streams *)
Definition set_streams (cfg : sconfig) : res (list str) :=
  foldM (fun kinds e =>
    match dget (lit "kind") (snd e) with
    | None => Exn KeyError
    | Some (SStr k) => Ok (if smem (upper k) allowed_streams && negb (smem k kinds) then kinds ++ [k] else kinds)
    | Some _ => Exn ValueError
    end) cfg [].

(** ''.join([stream.lower(), 's']) *)
Definition key_of (kind : str) : str := lower kind ++ lit "s".
Definition triggers := dict (list vstream).
Definition tget (k : str) (d : triggers) : res (list vstream) := of_option KeyError (dget k d).

(** Python truth value of config['inverse'] *)
Definition truthy (v : sval) : bool :=
  match v with SNone => false | SBool b => b | SStr s => negb (seqb s []) | SRegex _ => true | SOther => true end.

(** 158-170: one configuration entry considered for one kind *)
Definition add_entry (kind : str) (ti : triggers * triggers) (entry : str * dict sval) : res (triggers * triggers) :=
  match dget (lit "kind") (snd entry) with
  | None => Exn KeyError
  | Some (SStr k) =>
      if seqb k kind then
        let inverse := match dget (lit "inverse") (snd entry) with Some v => truthy v | None => false end in
        let* t := vasp_stream (fst entry) (snd entry) in
        if inverse then let* l := tget (key_of kind) (snd ti) in Ok (fst ti, dset (key_of kind) (l ++ [t]) (snd ti))
        else let* l := tget (key_of kind) (fst ti) in Ok (dset (key_of kind) (l ++ [t]) (fst ti), snd ti)
      else Ok ti
  | Some _ => Ok ti
  end.
(** 149-172 _build_stream_triggers *)
Definition build_triggers (kinds : list str) (cfg : sconfig) : res (triggers * triggers) :=
  let empty := fold_left (fun d k => dset (key_of k) [] d) kinds [] in
  foldM (fun ti kind => foldM (add_entry kind) cfg ti) kinds (empty, empty).

(** 201-206: stream_triggers shares its lists with self._stream_triggers, which are
    extended in place *)
Definition extend_triggers (kinds : list str) (tr inv : triggers) : res triggers :=
  foldM (fun tr kind =>
    let* l := tget (key_of kind) tr in let* i := tget (key_of kind) inv in
    Ok (dset (key_of kind) (l ++ i) tr)) kinds tr.

(** 208-229 the scan: found streams, names of the inverse ones found, and per key the
    indices to skip *)
Record scan := Scan { sc_streams : list vstream; sc_inverse : list str; sc_ignore : dict (list nat) }.
Definition scan_trigger (history : bool) (line key : str) (st : scan) (it : nat * vstream) : res scan :=
  let* ign := of_option KeyError (dget key (sc_ignore st)) in
  if existsb (Nat.eqb (fst it)) ign then Ok st                                  (* 217 *)
  else
    let* m := check_line (snd it) line in                                       (* 218 *)
    match m with
    | None => Ok st
    | Some rec =>
        Ok (Scan (if vs_inverse rec then sc_streams st else sc_streams st ++ [rec])      (* 220-222 *)
                 (if vs_inverse rec then sc_inverse st ++ [vs_short rec] else sc_inverse st)   (* 223-225 *)
                 (if history then sc_ignore st else dset key (ign ++ [fst it]) (sc_ignore st)))  (* 226-229 *)
    end.
Definition enumerate {T} (l : list T) : list (nat * T) := combine (seq 0 (length l)) l.
Definition scan_line (history : bool) (trs : triggers) (st : scan) (line : str) : res scan :=
  foldM (fun st kt => foldM (scan_trigger history line (fst kt)) (enumerate (snd kt)) st) trs st.
Definition from_list (history : bool) (trs : triggers) (stream : list str) : res scan :=
  foldM (scan_line history trs) stream (Scan [] [] (map (fun kt => (fst kt, [])) trs)).

(** 231-246 _add_inverse_triggers *)
Definition add_inverse (inv : triggers) (st : scan) : list vstream :=
  sc_streams st ++ flat_map (fun kt => filter (fun t => negb (smem (vs_short t) (sc_inverse st))) (snd kt)) inv.

(** The object: properties configured_streams, kinds, entries (89-102) *)
Record stream := Stream { configured_streams : triggers; kinds : list str; entries : list vstream }.
(** 104-112 has_entries, number_of_entries *)
Definition has_entries (o : stream) : bool := match entries o with [] => false | _ => true end.
Definition number_of_entries (o : stream) : nat := length (entries o).

(** 22-75 __init__, 174-190 _parse and _from_file *)
Definition stream_init (path : source_path) (handler : source_handler) (history : bool) (config : option sconfig) : res stream :=
  if negb (is_some path) && negb (is_some handler) then Exn (SysExit 10) else  (* 52-59 *)
  let cfg := load_config config in
  let* kinds := set_streams cfg in
  let* (tr, inv) := build_triggers kinds cfg in
  let* lines := read_from_file path handler CNone in
  let* all := extend_triggers kinds tr inv in
  let* st := from_list history all lines in
  Ok (Stream all kinds (add_inverse inv st)).
End Stream.

(** ** Patterns of plain characters and dots *)
Inductive atom := Plain (c : ascii) | Dot.
Definition meta_chars : str := lit "^$*+?{}[]\|()".
Fixpoint compile_plain (s : str) : option (list atom) :=
  match s with
  | [] => Some []
  | c :: r => if charb c meta_chars then None
              else match compile_plain r with
                   | Some p => Some ((if aeqb c "." then Dot else Plain c) :: p)
                   | None => None
                   end
  end.
(** re: '.' matches any character but a newline *)
Definition atom_matches (a : atom) (c : ascii) : bool :=
  match a with Plain d => aeqb c d | Dot => negb (aeqb c nl) end.
Fixpoint matches_here (p : list atom) (l : str) : bool :=
  match p, l with
  | [], _ => true
  | a :: p', c :: l' => atom_matches a c && matches_here p' l'
  | _ :: _, [] => false
  end.
Fixpoint search_plain (p : list atom) (l : str) : bool :=
  matches_here p l || match l with [] => false | _ :: r => search_plain p r end.
