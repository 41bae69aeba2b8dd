(** Elements of a document and the paths of lxml (the library's find and findall for the
    kind of paths that vasprun.py uses). *)
From Coq Require Import String List Bool.
From Verif Require Import PyBase VasprunTypes.
Import ListNotations.
Local Open Scope list_scope.
Local Open Scope bool_scope.

(** ** Elements and paths *)
Fixpoint assoc {A} (k : string) (l : list (string * A)) : option A :=
  match l with [] => None | (k', v) :: r => if String.eqb k k' then Some v else assoc k r end.
Definition attr (e : xml) (k : string) : option string := assoc k (attrs e).
Definition opt_is (v : string) (o : option string) : bool := match o with Some w => String.eqb v w | None => false end.
(** one step of a path: a tag, perhaps with [@name="value"] *)
Inductive pstep := Tag (t : string) | TagAt (t name value : string).
Definition matches (s : pstep) (e : xml) : bool :=
  match s with Tag t => String.eqb t (tag e) | TagAt t n v => String.eqb t (tag e) && opt_is v (attr e n) end.
Fixpoint descendants (e : xml) : list xml :=
  match e with Elem _ _ _ ks => flat_map (fun k => k :: descendants k) ks end.
Fixpoint children_at (path : list pstep) (es : list xml) : list xml :=
  match path with [] => es | s :: r => children_at r (filter (matches s) (flat_map kids es)) end.
(** findall of 'a/b/c' and of './/a/b/c' (lxml reads '//a' as './/a'), in document order *)
Definition findall_child (path : list pstep) (e : xml) : list xml := children_at path [e].
Definition findall_deep (path : list pstep) (e : xml) : list xml :=
  match path with [] => [] | s :: r => children_at r (filter (matches s) (descendants e)) end.
