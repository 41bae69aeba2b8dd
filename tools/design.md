# Formal model of parsevasp in Rocq/Coq 8.16 -- design

## 1. Approach

Shallow, executable Gallina functions that follow the Python functions branch by branch; exceptions
are values.  Each definition cites the file and lines of `/repo` it models and says where it
simplifies.  `*Model.v` (and `VasprunEvents.v`, `VasprunXml.v`, `LineModel.v`, `ArithModel.v`) hold the
model; `*Spec.v` (and `VasprunDoc.v`) say what a file says without using the parser; the other files
prove; `Props_*.v` hold the theorems `Cnn_...`, each with an `Example` that a concrete, non-trivial
case meets its hypotheses.

* `str := list ascii`: a Python `str` whose code points are below 256 (Latin-1).  White space,
  `splitlines` boundaries and `lower()` are exact on this range; `upper()` is exact on ASCII (the
  places where it matters say so).
* `res A := Ok a | Exn e`: Python evaluation; `e` is `SysExit code` or a Python exception.
  `Exn OutOfModel` marks behaviour that is deliberately not modelled (listed in section 4).
* Python dict = insertion-ordered association list with unique keys.
* A file is the text it decodes to; opening a path translates newlines, a handler does not.
* Numbers: the grammars of `int()` and `float()` are modelled completely.  A float is an IEEE
  binary64 value (sign, mantissa, exponent, inf, nan; `PyNum.v`): `float(text)` is the correctly
  rounded value, `{:w.pf}` the exact round-half-even decimal, `repr` the digits given.  Where only
  linear algebra decides (POSCAR, CHGCAR, lattices) the model is written over an abstract arithmetic
  with two instances: binary64 with an *arbitrary* `numpy.dot`/`inv`/volume (its rounding depends on
  the installed library), and exact rationals (or any field, `LatticeModel.v`).
* Loggers are not modelled.

## 2. Properties: what is modelled and how it is proved

| id | what is modelled / how it is proved |
|----|--------------------------------------|
| C01 C02 | `IncarModel`: tokenizer, number grammar, `str()` of numbers; inverse lemmas token by token, then induction over the sorted entry list |
| C03 C15 | invariant by induction over operation lists; refinement to a function `tag -> option value` |
| C04 C08 C14 | induction over lines and fragments, `fold_left` of dict insertion |
| C05 C06 C11 C13 | refutation witnesses or families, and the guarded positive theorem |
| C07 | `sorted` = insertion sort, proved sorted and a permutation |
| C09 C10 | case analysis on the parser; independent grammar (inductive) |
| C12 C37 | case analysis over the supplied sources, contents universally quantified |
| C16 | `_from_dict` on canonical values is the identity |
| C17-C26 C59 | `KpointsModel` over a universal Python value type; round trips through the `{:w.pf}` model; histories by induction |
| C27-C36 | `PoscarModel` over an `arith`: theorems that hold for every arithmetic, for binary64 with any dot/inv, or for exact rationals (conversions, by `field`) |
| C38 | decimal formatting: error bound, tokens separated |
| C39 | `LatticeModel` over every field: Cramer's rule, `field`; linear independence is equivalent to a non-zero volume |
| C40 C60 | `utils.read_from_file`, `base.write` |
| C41-C45 C61 | `StreamModel`: the regular expression engine is an arbitrary parameter; the default configuration with an engine for plain patterns |
| C46-C49 C62 | `OutcarModel`: line fold with hand-written matchers (proved against the text patterns in `OutcarMatch.v`) |
| C50 C63 C64 | `DoscarModel`, spec on the lines of the documented layout |
| C51 C65 | `EigenvalModel`; hypothesis `newlines_only` (a handler with CRLF text splits differently) |
| C52 C66 | `ChgcarModel` over a `cell_arith` |
| C53 C67 | `PotcarModel`: regular expressions as matchers |
| C54 C56-C58 C68-C70 | `VasprunModel`: documents are trees, `VasprunXml` the path language of lxml that the code uses, numpy tables as lists with broadcasting of short rows |
| C73-C79 | `VasprunAccess`: the remaining accessors, get_lattice, get_parameters, get_dict; rows of the document cell by cell against what the accessors return |
| C80 | an inductive `reason` says which defect each code means; a result predicate (`exits P`) pushed through every function of the regular parser, and a set of codes through every block of the event parser |
| C55 C71 C72 | `VasprunEvents`: the state machine over start/end events; `VasprunDoc` a grammar of runs; simulation element by element |
| C81-C85 | `IoModel`: file objects with content, position and open flag; each `_write` as the list of write() and truncate() calls it makes, proved to leave the text of the pure writer; crash semantics with a buffer that may be flushed at any time; `IoVasprun`: the seeks of `Vasprun` |
| C86 C87 | `PoscarModel`, `KpointsModel`: the dictionary entry by entry against the objects' own accessors |
| C88 | line-ending translation commutes with every text parser (`readlines (translate_newlines t)` against the LF form) |
| C89 | two texts with the same token list on every line give the same object; per parser, by lemmas on `split_ws` |
| C90 | `replaced l i t` puts a non-number in one numeric column of one line; the reader must exit, pushed through `mapM` and the line loops |
| C91 C92 | totality: shape invariants of what the readers can return, against the conditions under which the writers succeed |
| C93 | `PyShort`: rational-number analysis of correct rounding and of shortest printing; 15-digit decimals are fixed points |
| C94 | `PyFmtDigits`: the same for `{:w.pf}`; combined with the line-by-line specifications of the readers and writers |
| C95 | `Props_Stable`, `Props_KpointsStable`: the site that comes back has the text of the site written (`back`, `rewrite_lines`), grouping of grouped sites is the identity, C36 for the comment |
| C96 | `Props_OutcarTotal`: success of each function characterised by an equivalence (`okr`), composed over the lines by induction with the current section and the sites seen so far as invariants |
| C97 | `Props_DoscarTotal`: the reader's success and the conditions on the lines imply each other; the record of what an accepted file was read as (C50) in one direction, existence lemmas for every step in the other; the repeated header found by the reader is the specification's `first_repeat` |
| C98 | `Props_EigenvalTotal`: the groups the reader cuts the body into have no empty group if and only if blank lines are where the specification allows them; every successful step of the reader gives back the condition on its line |
| C99 | `Props_ChgcarTotal`: both directions over an arbitrary arithmetic, from the cuts of the text (C52) and the equivalence between a data set that is converted and one that is complete |
| C100 | `Props_PotcarTotal`: what the regular expression takes from a value specified declaratively and shown unique (`taken`); success of the fold over the fields equivalent to the conversion of each |

Where the code violates the expectation, `..._refuted` gives a witness or, where possible, a theorem
for a whole family of inputs, and a guarded theorem proves what does hold; such properties are
reported as `partial` with a note.

## 3. Trusted base

* Coq's kernel (8.16.1).  `Print Assumptions` of every theorem is in section 5.
* The reading of the Python source, of CPython's `str`/`int`/`float`/`format`/`re` semantics, of numpy's
  and lxml's semantics, as written in the model comments.
* `tools/gen_vasprun_types.py` (record setters and the table of elements) and `IncarTags.v`
  (the keys of `incar.yml`) were generated from `/repo`; the generated files are the sources that are checked.
* The standard library only (`List`, `String`, `ZArith`, `NArith`, `QArith`, `Qcanon`, `Lia`, `Lqa`,
  `Field`, `Permutation`, `Sorting`).  No axioms are used.  (`coqchk` lists seven constants of
  `Coq.ssr.ssrunder`, fields of an opaque module of the standard library that is loaded with the
  tactics; no theorem depends on them.)

## 4. What is modelled and what is not

| file | modelled | not modelled |
|------|----------|--------------|
| `incar.py` | whole file | loggers, non-`str`/number values of a dictionary other than those of `ival` |
| `kpoints.py` | whole file | an `int` given to an `f` format; Kpoint fields of other types |
| `poscar.py` | whole file | rounding of `numpy.dot`/`inv` (arbitrary); a unit cell that is no array |
| `utils.py` | whole file (`read_from_file`, `is_number(s)`, `remove_newline`, `line_to_type`, `match_integer_param`, conversions); `file_exists` only as used by `Vasprun` | |
| `base.py` | opening, `write`, `open_close_file_handler`, exit codes; `IoModel`: the write calls on the file object one by one, and crash points | message texts |
| `stream.py`, `stream.yml` | whole file, default configuration | the regular expression engine (a parameter) |
| `outcar.py` | whole file | ragged numpy tables (`OutOfModel`) |
| `doscar.py` | whole file | ragged numpy tables (`OutOfModel`) |
| `eigenval.py` | whole file | |
| `chgcar.py` | whole file | `np.fromstring` on odd white space or parentheses, grids that are not three non-negative integers (`OutOfModel`) |
| `potcar.py` | whole file | |
| `vasprun.py` | `_parsew`, `_parsee`, every `_fetch_*w`, every `_convert_*`, every accessor, truncation and choice of the method | lxml (a document is a tree; iterparse is a list of events, each start event with a flag whether the text has been read); `np.fromstring` of integers outside 32 bits or with odd characters (`OutOfModel`); the grammar of C55 has no interpolated bands, second dielectric function or steps without stress (the parsers differ there) |
| `constants.py` | the table of elements, the INCAR tags | |

Beyond the sizes of the code there is no bound: every theorem is for lists, texts, trees and
histories of any length.  Memory, recursion limits and time are not modelled.

