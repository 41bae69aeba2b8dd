#!/usr/bin/env python3
"""Generate rocq/theories/VasprunTypes.v: the record types of the vasprun model, with setters, and the element table."""
import re, ast
src = open('/repo/parsevasp/constants.py').read()
m = re.search(r'elements = (\{.*?\n\})', src, re.S)
elements = ast.literal_eval(m.group(1))

def record(name, ctor, prefix, fields, comment):
    out = [f"(** {comment} *)", f"Record {name} := {ctor} {{"]
    out.append(";\n".join(f"  {prefix}{f} : {t}" for f, t in fields) + " }.")
    for i, (f, t) in enumerate(fields):
        args = " ".join("v" if j == i else f"({prefix}{g} s)" for j, (g, _) in enumerate(fields))
        out.append(f"Definition set_{prefix}{f} (v : {t}) (s : {name}) : {name} := {ctor} {args}.")
    return "\n".join(out) + "\n"

head = r'''(** Types of the vasprun model (generated by tools/gen_vasprun_types.py: records, one
    setter per field, and the table of elements of constants.py). *)
From Coq Require Import Ascii String List NArith ZArith Bool.
From Verif Require Import PyBase PyNum.
Import ListNotations.
Local Open Scope list_scope.

(** An element of the document: tag, attributes, the text before its first child (None
    if there is none), children.  Comments, processing instructions and the text after an
    element are not modelled: vasprun.py does not look at them *)
Inductive xml := Elem (tag : string) (attrs : list (string * string)) (text : option str) (kids : list xml).
Definition tag (e : xml) : string := match e with Elem t _ _ _ => t end.
Definition attrs (e : xml) : list (string * string) := match e with Elem _ a _ _ => a end.
Definition text (e : xml) : option str := match e with Elem _ _ t _ => t end.
Definition kids (e : xml) : list xml := match e with Elem _ _ _ k => k end.

Notation row := (list float).
Notation matrix := (list (list float)).
(** dictionaries whose keys are the numbers of the ionic steps, in order of insertion *)
Definition ndict (A : Type) := list (nat * A).
(** {'total': a} or {'up': a, 'down': b} *)
Inductive spins (A : Type) := Total (a : A) | UpDown (a b : A).
Arguments Total {A}. Arguments UpDown {A}.
(** the Born charges; [BornNones] is the tuple (None, None, None, None) of vasprun.py:1436 *)
Inductive born := BornNone | BornArray (a : list matrix) | BornNones.
'''
dpart = [("energy","option row"),("total","option row"),("integrated","option row"),("partial","option (option (list matrix))"),("fermi","option (option float)")]
ddict = [("up","option dpart"),("down","option dpart"),("all","option dpart")]
diel = [("energy","option row"),("imag","option matrix"),("real","option matrix"),("epsilon","option (option matrix)"),("epsilon_ion","option (option matrix)")]
dynm = [("values","option row"),("vectors","option matrix")]
tot = [("extrapolated","option row"),("free","option row"),("no_entropy","option row"),("extrapolated_final","option (option float)"),("free_final","option (option float)"),("no_entropy_final","option (option float)")]
parsed = [("version","option str"),("symprec","option float"),("sigma","option float"),("ismear","option Z"),("ispin","option Z"),("nbands","option Z"),("nelect","option float"),("system","option str"),("nelm","option Z"),("nsw","option Z"),
 ("species","option (list Z)"),("cell","option (ndict (option matrix))"),("pos","option (ndict (option matrix))"),("force","option (ndict (option matrix))"),("stress","option (ndict (option matrix))"),
 ("kpoints","option matrix"),("kpointsw","option row"),("kdiv","option (list Z)"),
 ("eigenvalues","option (spins matrix)"),("occupancies","option (spins matrix)"),("eigenvalues_specific","option (spins matrix)"),("velocities","option (spins (list matrix))"),
 ("kpoints_specific","option matrix"),("kpointsw_specific","option row"),("dos","option ddict"),("dos_specific","option ddict"),("totens","option (ndict tot)"),("diel","option diel"),
 ("projectors","option (spins (list (list matrix)))"),("hessian","option matrix"),("dynmat","option dynm"),("born","born")]
est = [("flags","N"),("calc","nat"),("data","list xml"),("data2","list xml"),("data3","list xml"),("data4","list xml"),("data5","list xml"),("data6","list xml"),
 ("cell","ndict (option matrix)"),("pos","ndict (option matrix)"),("force","ndict (option matrix)"),("stress","ndict (option matrix)"),("totens","ndict tot"),
 ("dos","ddict"),("part1","dpart"),("part2","dpart"),("dynmat","dynm"),("specific","bool"),("has_dynmat","bool"),("out","parsed")]
s = head
s += record("dpart","DPart","dp_",dpart,"one part of a density of states; None: no such key")
s += record("ddict","DDict","dd_",ddict,"a density of states: the keys 'up', 'down', 'total'")
s += record("diel","Diel","di_",diel,"the dielectric function; for epsilon and epsilon_ion the outer None: no such key")
s += record("dynm","Dynm","dy_",dynm,"the dynamical matrix; None: no such key")
s += record("tot","Tot","to_",tot,"total energies of one ionic step; the outer None: no such key")
s += record("parsed","Parsed","p_",parsed,"what the object holds after parsing: vasprun.py:124-163")
s += record("est","Est","s_",est,"the variables of _parsee (vasprun.py:262-360): flags is a bit mask of the extract_... variables; data to data6; [specific], [has_dynmat]: _data['dos_specific'] (_data['dynmat']) is the object in the variable dos (dynmat); out: the attributes set so far")
s += "\n(** constants.py:6-126 *)\nDefinition elements : list (string * Z) :=\n  [" + ";\n   ".join("; ".join(f'("{k}", {v})' for k, v in list(elements.items())[i:i+10]) for i in range(0, len(elements), 10)) + "]%string%Z.\n"
open('/verif/rocq/theories/VasprunTypes.v','w').write(s)
