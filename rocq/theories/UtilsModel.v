(** Model of parsevasp/utils.py (text helpers) and of the file plumbing of
    parsevasp/base.py.  Loggers are not modelled. *)
From Coq Require Import Ascii String List NArith ZArith Bool Lia.
From Verif Require Import PyBase PyNum.
Import ListNotations.
Local Open Scope list_scope.
Local Open Scope bool_scope.

Definition is_some {A} (o : option A) : bool := match o with Some _ => true | None => false end.

(** The two ways to name a text source.  [path]: [None] is the Python None;
    [Some None] names a file that cannot be opened; [Some (Some t)] a file whose
    decoded content is [t].  [handler]: the text its readlines() yields. *)
Definition source_path := option (option str).
Definition source_handler := option str.

(** utils.py:50-60: the lines of the file or handler (lines=True).  Opening a
    path in text mode translates its newlines; a missing file exits with 14
    (base.py:170-174). *)
Definition file_data (path : source_path) (handler : source_handler) : res (list str) :=
  match handler with
  | Some txt => Ok (readlines txt)
  | None => match path with
            | Some (Some txt) => Ok (readlines (translate_newlines txt))
            | _ => Exn (SysExit 14)
            end
  end.

(** The [contains] argument: None, one string, or a list of strings. *)
Inductive contains_arg := CNone | COne (s : str) | CMany (l : list str).

(** utils.py:117-136 is_sequence: a str has __iter__ in Python 3, so it counts
    as a sequence (of its characters) *)
Definition is_sequence (c : contains_arg) : bool :=
  match c with CNone => false | _ => true end.
(** the elements [for element in contains] yields *)
Definition contains_elements (c : contains_arg) : list str :=
  match c with CNone => [] | COne s => map (fun a => [a]) s | CMany l => l end.

(** utils.py:66-85: the line filter.  A line is appended once per matching
    element. *)
Definition filter_lines (c : contains_arg) (data : list str) : list str :=
  match c with
  | CNone => data
  | _ => flat_map (fun line => flat_map (fun el => if substrb el line then [line] else [])
                                        (contains_elements c)) data
  end.
(** utils.py:13-85 read_from_file with lines=True *)
Definition read_from_file (path : source_path) (handler : source_handler) (c : contains_arg) : res (list str) :=
  let* d := file_data path handler in Ok (filter_lines c d).

(** utils.py:199-220 is_number *)
Definition is_number (s : str) : bool := is_some (parse_float s).
(** utils.py:172-196 is_numbers with the default splitter ' ' *)
Definition is_numbers (s : str) : bool := forallb is_number (split_on sp s).

(** utils.py:223-242 remove_newline(fobj) on a POSIX system: drop the last character
    written (the file position is at the end after writing). *)
Definition remove_newline (written : str) : str := removelast written.

(** base.py:64-98 write(file_path=..., file_handler=..., ...).  [path]: None when the
    keyword is absent, otherwise its value ('' for a falsy one); [handler]: whether the
    keyword file_handler is present.  [old]: the content of the file at that path
    before the call.  [body]: what the subclass's _write does, the text it emits before
    it ends and the exception it ends with, if any.
    Result: how the call ends, the content of the file at the path afterwards and
    what was emitted to the handler.  Opening a file with status 'w' empties it
    (base.py:88), before _write runs; text emitted before a failure is taken to be
    flushed.  A path given as '' leaves the handler '' (base.py:83-86), on which the
    first write is an AttributeError. *)
Record emission := Emission { em_text : str; em_exn : option exn }.
Definition ends (o : option exn) : res unit := match o with None => Ok tt | Some e => Exn e end.
Definition base_write (path : option str) (handler : bool) (old : str) (body : emission) : res unit * str * str :=
  match path, handler with
  | Some _, true | None, false => (Exn (SysExit 10), old, [])
  | Some [], false => (Exn AttributeError, old, [])
  | Some (_ :: _), false => (ends (em_exn body), em_text body, [])
  | None, true => (ends (em_exn body), old, em_text body)
  end.
(** a _write that validates, then emits a text *)
Definition emission_of (r : res str) : emission :=
  match r with Ok t => Emission t None | Exn e => Emission [] (Some e) end.
