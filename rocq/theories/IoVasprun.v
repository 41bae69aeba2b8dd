(** Model of what Vasprun does with the handler before it parses: vasprun.py:3605-3666
    _set_file_size and _set_xml_truncated, as calls on a file object (IoModel.v). *)
From Coq Require Import Ascii String List NArith ZArith Bool Lia Arith.
From Verif Require Import PyBase UtilsModel IoModel.
From Verif Require VasprunModel.
Import ListNotations.
Local Open Scope list_scope.
Local Open Scope bool_scope.

(** seek(n) *)
Definition f_seek (n : nat) (f : fobj) : res fobj :=
  if f_open f then Ok (FObj (f_text f) n true) else Exn ValueError.
(** readlines()[-1] and the object afterwards; IndexError when nothing is left *)
Definition f_last_line (f : fobj) : res (str * fobj) :=
  let* r := f_read f in
  match fst r with [] => Exn IndexError | t => Ok (VasprunModel.last_line [] t, snd r) end.
(** vasprun.py:3625-3633: seek(0, 2), tell(), seek(0) *)
Definition file_size (f : fobj) : res (nat * fobj) :=
  let* f := f_seek (length (f_text f)) f in
  let size := f_pos f in
  let* f := f_seek 0 f in
  Ok (size, f).
(** vasprun.py:3635-3666 with a handler; [binary]: readlines() gives bytes, otherwise
    the test "bytes in str" is a TypeError, after the seek(0) *)
Definition set_truncated (binary : bool) (size : nat) (f : fobj) : fobj * res bool :=
  if Nat.ltb 1024 size then
    match (let* f := f_seek (size - 1024) f in f_last_line f) with
    | Ok (l, f1) =>
        match f_seek 0 f1 with
        | Ok f2 => (f2, if binary then Ok (negb (substrb VasprunModel.closing l)) else Exn TypeError)
        | Exn e => (f1, Exn e)
        end
    | Exn e => (f, Exn e)
    end
  else (f, Ok true).
(** both, in the order of vasprun.py:174-177: the object the XML library is given, and
    the size and the flag that choose the method *)
Definition prepare (binary : bool) (f : fobj) : fobj * res (nat * bool) :=
  match file_size f with
  | Ok (size, f1) => let (f2, r) := set_truncated binary size f1 in (f2, let* b := r in Ok (size, b))
  | Exn e => (f, Exn e)
  end.
(** vasprun.py:174-205 Vasprun(file_handler=f): [parse] is what the XML library and the
    parser make of the method chosen and of the text read from the object *)
Definition vasprun_on {X} (binary event : bool) (parse : VasprunModel.method -> str -> res X) (f : fobj) : res X * fobj :=
  match prepare binary f with
  | (f1, Ok (size, b)) => parse_handler (parse (VasprunModel.choose (N.of_nat size) b event)) f1
  | (f1, Exn e) => (Exn e, f1)
  end.
