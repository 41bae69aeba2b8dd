(** Model of how files and handlers are used: the file objects parsevasp writes to and
    reads from, the sequence of write() calls each _write makes (incar.py, kpoints.py,
    poscar.py), and the plumbing of base.py and utils.py around them.  The text each
    call emits is that of IncarModel, KpointsModel and PoscarModel. *)
From Coq Require Import Ascii String List NArith ZArith Bool Lia.
From Verif Require Import PyBase PyNum UtilsModel IncarModel KpointsModel PoscarModel.
Import ListNotations.
Local Open Scope list_scope.
Local Open Scope bool_scope.

(** ** File objects
    A Python text file object (a text file opened on a POSIX system, or io.StringIO): its
    content, its position and whether it is open.  Simplification: positions count
    characters; for a file on disk they count bytes, which is the same for ASCII content. *)
Record fobj := FObj { f_text : str; f_pos : nat; f_open : bool }.
Definition nul : ascii := ascii_of_nat 0.
(** write(t): replaces what is at the position; a gap beyond the end is filled with NUL
    characters; '' writes nothing *)
Definition f_write (t : str) (f : fobj) : res fobj :=
  if f_open f then
    match t with
    | [] => Ok f
    | _ => Ok (FObj (firstn (f_pos f) (f_text f) ++ repeat nul (f_pos f - length (f_text f)) ++ t
                     ++ skipn (f_pos f + length t) (f_text f))
                    (f_pos f + length t) true)
    end
  else Exn ValueError.
(** truncate(n) with n at most the size: the position does not move *)
Definition f_truncate (n : nat) (f : fobj) : res fobj :=
  if f_open f then Ok (FObj (firstn n (f_text f)) (f_pos f) true) else Exn ValueError.
(** seek(0) *)
Definition f_rewind (f : fobj) : res fobj :=
  if f_open f then Ok (FObj (f_text f) 0 true) else Exn ValueError.
(** read(): everything from the position on; the position is then at the end (or stays
    where it was beyond it) *)
Definition f_rest (f : fobj) : str := skipn (f_pos f) (f_text f).
Definition f_read (f : fobj) : res (str * fobj) :=
  if f_open f then Ok (f_rest f, FObj (f_text f) (Nat.max (f_pos f) (length (f_text f))) true) else Exn ValueError.
Definition f_close (f : fobj) : fobj := FObj (f_text f) (f_pos f) false.
(** open(path, 'w'): an empty file; open(path, 'r'): its content *)
Definition opened (t : str) : fobj := FObj t 0 true.

(** utils.py:226-246 remove_newline(fobj): truncate(tell() - 1) (os.linesep is one
    character); at position 0 the negative size is a ValueError *)
Definition f_cut (f : fobj) : res fobj :=
  match f_pos f with
  | O => Exn ValueError
  | S n => f_truncate n f
  end.

(** ** Writers: the calls made on the handler, and how the method ends *)
Inductive op := Put (t : str) | Cut.
Definition W (A : Type) : Type := list op * res A.
Definition wret {A} (a : A) : W A := ([], Ok a).
Definition lift {A} (r : res A) : W A := ([], r).
Definition put (t : str) : W unit := ([Put t], Ok tt).
Definition cut_newline : W unit := ([Cut], Ok tt).
Definition wbind {A B} (m : W A) (k : A -> W B) : W B :=
  match snd m with
  | Ok a => (fst m ++ fst (k a), snd (k a))
  | Exn e => (fst m, Exn e)
  end.
(** for x in l: k(x) *)
Fixpoint each {A} (k : A -> W unit) (l : list A) : W unit :=
  match l with [] => wret tt | x :: r => wbind (k x) (fun _ => each k r) end.

(** one call on a file object *)
Definition do_op (o : op) (f : fobj) : res fobj :=
  match o with Put t => f_write t f | Cut => f_cut f end.
(** the calls in order; the first one that raises ends the method *)
Fixpoint do_ops (l : list op) (f : fobj) : fobj * res unit :=
  match l with
  | [] => (f, Ok tt)
  | o :: r => match do_op o f with
              | Ok f' => do_ops r f'
              | Exn e => (f, Exn e)
              end
  end.
(** _write(file_handler): the file object afterwards and how the call ends *)
Definition run_on (w : W unit) (f : fobj) : fobj * res unit :=
  let (f', r) := do_ops (fst w) f in
  match r with Ok _ => (f', snd w) | Exn e => (f', Exn e) end.

Notation "'do*' x ':=' m 'in' k" := (wbind m (fun x => k)) (at level 200, x name, m at level 100, k at level 200).
Notation "m ';;;' k" := (wbind m (fun _ => k)) (at level 199, k at level 200).

(** incar.py:414-445: one write per tag, in alphabetical order; the texts are those of
    IncarModel.write_item (the conversion of a value cannot fail in that model) *)
Definition incar_put (comments : bool) (x : incar) (k : str) : W unit :=
  match dget k (ents x) with
  | Some it => put (write_item comments k it)
  | None => wret tt          (* unreachable: keys come from the dict *)
  end.
Definition incar_w (comments : bool) (x : incar) : W unit :=
  each (incar_put comments x) (ssort (dkeys (ents x))).

(** kpoints.py:876-918 *)
Definition tetra_w (prec : nat) (es : kentries) : W unit :=
  do* t := lift (key es "tetra") in
  match t with
  | KNone => wret tt
  | KList l =>
      put (lit "Tetrahedra" ++ [nl]) ;;;
      do* v := lift (key es "tetra_volume") in
      do* x := lift (as_float v) in
      put (fmtd6 (Z.of_nat (length l)) ++ sp1 ++ fmtf prec x ++ [nl]) ;;;
      each (fun e => do* t := lift (write_tetra_line e) in put t) l
  | _ => lift (Exn TypeError)
  end.
Definition explicit_w (prec : nat) (es : kentries) : W unit :=
  do* n := lift (key es "num_kpoints") in
  do* nz := lift (as_int n) in
  put (fmtd6 nz ++ [nl]) ;;;
  put (lit "Direct" ++ [nl]) ;;;
  do* p := lift (key es "points") in
  do* pts := lift (points_of p) in
  each (fun v => do* t := lift (write_point prec v) in put t) pts ;;;
  tetra_w prec es.
(** kpoints.py:919-946 *)
Definition automatic_w (prec : nat) (es : kentries) : W unit :=
  put (lit "0" ++ [nl]) ;;;
  do* c := lift (key es "centering") in
  do* cs := lift (match c with KStr s => Ok s | _ => Exn TypeError end) in
  put (cs ++ [nl]) ;;;
  do* d := lift (key es "divisions") in
  match d with
  | KNone => wret tt
  | KList l => do* l3 := lift (mapM (fun i => let* e := py_nth l i in as_int e) [0; 1; 2]) in
               put (join sp1 (map (fmt_d (width prec)) l3) ++ [nl])
  | _ => lift (Exn TypeError)
  end ;;;
  do* g := lift (key es "generating_vectors") in
  match g with
  | KNone => wret tt
  | KList l => each (fun v => do* t := lift (write_vec prec v) in put t) l
  | _ => lift (Exn TypeError)
  end ;;;
  do* s := lift (key es "shifts") in
  do* t := lift (match s with
                 | KNone => write_vec prec (kfloats [float_of_Z 0; float_of_Z 0; float_of_Z 0])
                 | _ => write_vec prec s
                 end) in
  put t.
(** kpoints.py:948-966; [second] is complete_set == 2 *)
Fixpoint line_points_w (prec : nat) (second : bool) (pts : list kval) : W unit :=
  match pts with
  | [] => wret tt
  | v :: r => do* t := lift (write_line_point prec v) in
              put t ;;;
              (if second then put [nl] else wret tt) ;;;
              line_points_w prec (negb second) r
  end.
Definition line_w (prec : nat) (es : kentries) : W unit :=
  do* n := lift (key es "num_kpoints") in
  do* nz := lift (as_int n) in
  put (fmtd6 nz ++ [nl]) ;;;
  put (lit "Line-mode" ++ [nl]) ;;;
  put (lit "Direct" ++ [nl]) ;;;
  do* p := lift (key es "points") in
  do* pts := lift (points_of p) in
  line_points_w prec false pts ;;;
  cut_newline.
(** kpoints.py:855-966 *)
Definition kpoints_w (prec : nat) (es : kentries) : W unit :=
  do* u := lift (KpointsModel.validate es) in
  do* c := lift (key es "comment") in
  do* cs := lift (match c with
                  | KNone => Ok (lit "# No comment")
                  | KStr s => Ok (lit "# " ++ s)
                  | _ => Exn TypeError
                  end) in
  put (cs ++ [nl]) ;;;
  do* m := lift (key es "mode") in
  match m with
  | KStr mode =>
      if seqb mode (lit "explicit") then explicit_w prec es
      else if seqb mode (lit "automatic") then automatic_w prec es
      else if seqb mode (lit "line") then line_w prec es
      else wret tt
  | _ => wret tt
  end.

(** poscar.py:829-936 *)
Section Poscar.
Variable A : arith.
Definition position_w (prec : nat) (wd selective : bool) (cell : list (list (num A))) (s : wsite A) : W unit :=
  do* v := lift (shown A wd cell (ws_position A s)) in
  do* t := lift (line3 A prec v) in
  put t ;;;
  (if selective then do* f := lift (flags_text (ws_selective A s)) in put f else wret tt) ;;;
  put [nl].
Definition poscar_w (prec : nat) (conserve wd : bool) (es : pentries A) : W unit :=
  do* u0 := lift (PoscarModel.validate A es) in
  do* co := lift (pkey A es "comment") in
  do* u := lift (pkey A es "unitcell") in
  do* cell := lift (unitcell_of A u) in
  do* s := lift (pkey A es "sites") in
  do* l := lift (match s with PSites _ l => Ok l | _ => Exn TypeError end) in
  do* sites := lift (mapM (wsite_of A) l) in
  let selective := existsb (fun s => existsb negb (ws_selective A s)) sites in
  let hasv := existsb (fun s => is_some (ws_velocities A s)) sites in
  let hasp := existsb (fun s => is_some (ws_predictors A s)) sites in
  let out := fst (group_sites A conserve sites) in
  let groups := snd (group_sites A conserve sites) in
  do* c := lift (comment_text A groups co) in
  put (c ++ [nl]) ;;;
  put (num_text A prec (n1 A) ++ [nl]) ;;;
  each (fun row => do* t := lift (line3 A prec row) in put (t ++ [nl])) cell ;;;
  put (species_text groups ++ [nl]) ;;;
  put (counts_text groups ++ [nl]) ;;;
  (if selective then put (lit "Selective dynamics" ++ [nl]) else wret tt) ;;;
  put (label wd ++ [nl]) ;;;
  each (position_w prec wd selective cell) out ;;;
  (if hasv then
     put (label wd ++ [nl]) ;;;
     each (fun s => do* t := lift (velocity_text A prec wd cell s) in put (t ++ [nl])) out
   else wret tt) ;;;
  (if hasp then
     put [nl] ;;;
     each (fun s => do* t := lift (predictor_text A prec s) in put (t ++ [nl])) out
   else wret tt).
End Poscar.

(** ** get_string: kpoints.py:834-853, incar.py:394-412, poscar.py:808-827: _write on a
    fresh io.StringIO, its content, close *)
Definition get_string_io (w : W unit) : res str :=
  match run_on w (opened []) with
  | (f, Ok _) => Ok (f_text f)
  | (_, Exn e) => Exn e
  end.

(** ** base.py:64-98 write(file_path=...) with a path that is not empty: the file object
    it opened, as it is when the call ends, and how it ends.  The file is closed
    (base.py:96-98) only when _write returned. *)
Definition write_path (w : W unit) : fobj * res unit :=
  match run_on w (opened []) with
  | (f, Ok _) => (f_close f, Ok tt)
  | (f, Exn e) => (f, Exn e)
  end.
(** base.py:64-98 write(file_handler=...) with a file object *)
Definition write_handler (w : W unit) (f : fobj) : fobj * res unit := run_on w f.

(** ** utils.py:48-62 read_from_file, with a file object as handler (it takes
    precedence): the lines or the text, and the object afterwards.  It is not closed. *)
Definition handler_lines (f : fobj) : res (list str * fobj) :=
  let* r := f_read f in Ok (readlines (fst r), snd r).

(** A parser given a handler: [parse] is what it computes from the text read *)
Definition parse_handler {X} (parse : str -> res X) (f : fobj) : res X * fobj :=
  match f_read f with
  | Ok (t, f') => (parse t, f')
  | Exn e => (Exn e, f)
  end.

(** base.py:130-174 open_close_file_handler.  [status]: 'r', 'w' or absent; [disk]: the content at the
    given name, None when it cannot be opened for that status.  Result: the handler
    returned (or the one given, closed). *)
Inductive status := SRead | SWrite.
Definition open_close (s : option status) (handler : option fobj) (disk : option str) : res fobj :=
  match s with
  | None => match handler with
            | None => Exn (SysExit 15)
            | Some f => Ok (f_close f)
            end
  | Some SRead => match disk with Some t => Ok (opened t) | None => Exn (SysExit 14) end
  | Some SWrite => match disk with Some _ => Ok (opened []) | None => Exn (SysExit 14) end
  end.

(** ** Crash points of write(file_path=...).  [d_disk] is what the disk holds, [d_buf]
    what was written and is still in the buffers of the file object.  The buffers may be
    flushed at any time, by any amount; tell() and truncate() flush all of it. *)
Record dstate := DState { d_disk : str; d_buf : str }.
Inductive dstep : dstate * list op -> dstate * list op -> Prop :=
| d_put : forall d b t l, dstep (DState d b, Put t :: l) (DState d (b ++ t), l)
| d_cut : forall d b l, d ++ b <> [] -> dstep (DState d b, Cut :: l) (DState (removelast (d ++ b)) [], l)
| d_flush : forall d b1 b2 l, dstep (DState d (b1 ++ b2), l) (DState (d ++ b1) b2, l).
Inductive dsteps : dstate * list op -> dstate * list op -> Prop :=
| ds_refl : forall s, dsteps s s
| ds_step : forall s1 s2 s3, dsteps s1 s2 -> dstep s2 s3 -> dsteps s1 s3.
(** what the disk may hold when the process dies: the old content while the file has
    not been opened yet, then whatever the steps lead to *)
Inductive crash_content (w : W unit) (old : str) : str -> Prop :=
| cc_before : crash_content w old old
| cc_during : forall d b l, dsteps (DState [] [], fst w) (DState d b, l) -> crash_content w old d.
