# Formal model of parsevasp in Rocq/Coq 8.16 -- design

## 1. Approach

Shallow, executable Gallina functions that follow the Python functions branch by branch; exceptions
are values.  Each definition cites the file and lines of `/repo` it models and says where it
simplifies.  `*Model.v` (and `VasprunEvents.v`, `VasprunXml.v`, `LineModel.v`, `ArithModel.v`) hold the
model; `*Spec.v` (and `VasprunDoc.v`) say what a file says without using the parser; the other files
prove; `Props_*.v` hold the theorems `Cnn_...`, each with an `Example` that a concrete, non-trivial
case meets its hypotheses.

* `str := list ascii`: a Python `str` whose code points are below 256 (Latin-1).  White space,
  `splitlines` boundaries and `lower()` are exact on this range; `upper()` is exact on ASCII (the
  places where it matters say so).
* `res A := Ok a | Exn e`: Python evaluation; `e` is `SysExit code` or a Python exception.
  `Exn OutOfModel` marks behaviour that is deliberately not modelled (listed in section 4).
* Python dict = insertion-ordered association list with unique keys.
* A file is the text it decodes to; opening a path translates newlines, a handler does not.
* Numbers: the grammars of `int()` and `float()` are modelled completely.  A float is an IEEE
  binary64 value (sign, mantissa, exponent, inf, nan; `PyNum.v`): `float(text)` is the correctly
  rounded value, `{:w.pf}` the exact round-half-even decimal, `repr` the digits given.  Where only
  linear algebra decides (POSCAR, CHGCAR, lattices) the model is written over an abstract arithmetic
  with two instances: binary64 with an *arbitrary* `numpy.dot`/`inv`/volume (its rounding depends on
  the installed library), and exact rationals (or any field, `LatticeModel.v`).
* Loggers are not modelled.

## 2. Properties: what is modelled and how it is proved

| id | what is modelled / how it is proved |
|----|--------------------------------------|
| C01 C02 | `IncarModel`: tokenizer, number grammar, `str()` of numbers; inverse lemmas token by token, then induction over the sorted entry list |
| C03 C15 | invariant by induction over operation lists; refinement to a function `tag -> option value` |
| C04 C08 C14 | induction over lines and fragments, `fold_left` of dict insertion |
| C05 C06 C11 C13 | refutation witnesses or families, and the guarded positive theorem |
| C07 | `sorted` = insertion sort, proved sorted and a permutation |
| C09 C10 | case analysis on the parser; independent grammar (inductive) |
| C12 C37 | case analysis over the supplied sources, contents universally quantified |
| C16 | `_from_dict` on canonical values is the identity |
| C17-C26 C59 | `KpointsModel` over a universal Python value type; round trips through the `{:w.pf}` model; histories by induction |
| C27-C36 | `PoscarModel` over an `arith`: theorems that hold for every arithmetic, for binary64 with any dot/inv, or for exact rationals (conversions, by `field`) |
| C38 | decimal formatting: error bound, tokens separated |
| C39 | `LatticeModel` over every field: Cramer's rule, `field`; linear independence is equivalent to a non-zero volume |
| C40 C60 | `utils.read_from_file`, `base.write` |
| C41-C45 C61 | `StreamModel`: the regular expression engine is an arbitrary parameter; the default configuration with an engine for plain patterns |
| C46-C49 C62 | `OutcarModel`: line fold with hand-written matchers (proved against the text patterns in `OutcarMatch.v`) |
| C50 C63 C64 | `DoscarModel`, spec on the lines of the documented layout |
| C51 C65 | `EigenvalModel`; hypothesis `newlines_only` (a handler with CRLF text splits differently) |
| C52 C66 | `ChgcarModel` over a `cell_arith` |
| C53 C67 | `PotcarModel`: regular expressions as matchers |
| C54 C56-C58 C68-C70 | `VasprunModel`: documents are trees, `VasprunXml` the path language of lxml that the code uses, numpy tables as lists with broadcasting of short rows |
| C73-C79 | `VasprunAccess`: the remaining accessors, get_lattice, get_parameters, get_dict; rows of the document cell by cell against what the accessors return |
| C80 | an inductive `reason` says which defect each code means; a result predicate (`exits P`) pushed through every function of the regular parser, and a set of codes through every block of the event parser |
| C55 C71 C72 | `VasprunEvents`: the state machine over start/end events; `VasprunDoc` a grammar of runs; simulation element by element |
| C81-C85 | `IoModel`: file objects with content, position and open flag; each `_write` as the list of write() and truncate() calls it makes, proved to leave the text of the pure writer; crash semantics with a buffer that may be flushed at any time; `IoVasprun`: the seeks of `Vasprun` |
| C86 C87 | `PoscarModel`, `KpointsModel`: the dictionary entry by entry against the objects' own accessors |
| C88 | line-ending translation commutes with every text parser (`readlines (translate_newlines t)` against the LF form) |
| C89 | two texts with the same token list on every line give the same object; per parser, by lemmas on `split_ws` |
| C90 | `replaced l i t` puts a non-number in one numeric column of one line; the reader must exit, pushed through `mapM` and the line loops |
| C91 C92 | totality: shape invariants of what the readers can return, against the conditions under which the writers succeed |
| C93 | `PyShort`: rational-number analysis of correct rounding and of shortest printing; 15-digit decimals are fixed points |
| C94 | `PyFmtDigits`: the same for `{:w.pf}`; combined with the line-by-line specifications of the readers and writers |
| C95 | `Props_Stable`, `Props_KpointsStable`: the site that comes back has the text of the site written (`back`, `rewrite_lines`), grouping of grouped sites is the identity, C36 for the comment |
| C96 | `Props_OutcarTotal`: success of each function characterised by an equivalence (`okr`), composed over the lines by induction with the current section and the sites seen so far as invariants |
| C97 | `Props_DoscarTotal`: the reader's success and the conditions on the lines imply each other; the record of what an accepted file was read as (C50) in one direction, existence lemmas for every step in the other; the repeated header found by the reader is the specification's `first_repeat` |
| C98 | `Props_EigenvalTotal`: the groups the reader cuts the body into have no empty group if and only if blank lines are where the specification allows them; every successful step of the reader gives back the condition on its line |
| C99 | `Props_ChgcarTotal`: both directions over an arbitrary arithmetic, from the cuts of the text (C52) and the equivalence between a data set that is converted and one that is complete |
| C100 | `Props_PotcarTotal`: what the regular expression takes from a value specified declaratively and shown unique (`taken`); success of the fold over the fields equivalent to the conversion of each |

Where the code violates the expectation, `..._refuted` gives a witness or, where possible, a theorem
for a whole family of inputs, and a guarded theorem proves what does hold; such properties are
reported as `partial` with a note.

## 3. Trusted base

* Coq's kernel (8.16.1).  `Print Assumptions` of every theorem is in section 5.
* The reading of the Python source, of CPython's `str`/`int`/`float`/`format`/`re` semantics, of numpy's
  and lxml's semantics, as written in the model comments.
* `tools/gen_vasprun_types.py` (record setters and the table of elements) and `IncarTags.v`
  (the keys of `incar.yml`) were generated from `/repo`; the generated files are the sources that are checked.
* The standard library only (`List`, `String`, `ZArith`, `NArith`, `QArith`, `Qcanon`, `Lia`, `Lqa`,
  `Field`, `Permutation`, `Sorting`).  No axioms are used.  (`coqchk` lists seven constants of
  `Coq.ssr.ssrunder`, fields of an opaque module of the standard library that is loaded with the
  tactics; no theorem depends on them.)

## 4. What is modelled and what is not

| file | modelled | not modelled |
|------|----------|--------------|
| `incar.py` | whole file | loggers, non-`str`/number values of a dictionary other than those of `ival` |
| `kpoints.py` | whole file | an `int` given to an `f` format; Kpoint fields of other types |
| `poscar.py` | whole file | rounding of `numpy.dot`/`inv` (arbitrary); a unit cell that is no array |
| `utils.py` | whole file (`read_from_file`, `is_number(s)`, `remove_newline`, `line_to_type`, `match_integer_param`, conversions); `file_exists` only as used by `Vasprun` | |
| `base.py` | opening, `write`, `open_close_file_handler`, exit codes; `IoModel`: the write calls on the file object one by one, and crash points | message texts |
| `stream.py`, `stream.yml` | whole file, default configuration | the regular expression engine (a parameter) |
| `outcar.py` | whole file | ragged numpy tables (`OutOfModel`) |
| `doscar.py` | whole file | ragged numpy tables (`OutOfModel`) |
| `eigenval.py` | whole file | |
| `chgcar.py` | whole file | `np.fromstring` on odd white space or parentheses, grids that are not three non-negative integers (`OutOfModel`) |
| `potcar.py` | whole file | |
| `vasprun.py` | `_parsew`, `_parsee`, every `_fetch_*w`, every `_convert_*`, every accessor, truncation and choice of the method | lxml (a document is a tree; iterparse is a list of events, each start event with a flag whether the text has been read); `np.fromstring` of integers outside 32 bits or with odd characters (`OutOfModel`); the grammar of C55 has no interpolated bands, second dielectric function or steps without stress (the parsers differ there) |
| `constants.py` | the table of elements, the INCAR tags | |

Beyond the sizes of the code there is no bound: every theorem is for lists, texts, trees and
histories of any length.  Memory, recursion limits and time are not modelled.

## 5. Print Assumptions

345 of 345 theorems are "Closed under the global context" (generated by `tools/assumptions.py`).

### Props_BadNumbers

Closed under the global context: `C90_kpoints_explicit`, `C90_kpoints_automatic`, `C90_kpoints_line`, `C90_kpoints_count`

### Props_BadPoscar

Closed under the global context: `C90_poscar`

### Props_BadTables

Closed under the global context: `C90_doscar`, `C90_eigenval_header`, `C90_eigenval_rows`

### Props_Blanks

Closed under the global context: `C89_kpoints`, `C89_doscar`, `C89_poscar`

### Props_Chgcar

Closed under the global context: `C52_grid`, `C52_unambiguous`, `C52_density_unambiguous`, `C52_accepts`, `C66_wrong_count`, `C66_third_set_refuted`, `C66_junk_refuted`, `C66_no_empty_line`, `C66_exit_codes`, `C52_exact`, `C52_left_handed_refuted`

### Props_ChgcarTotal

Closed under the global context: `C99_accepted`

### Props_Doscar

Closed under the global context: `C50_total`, `C50_projected`, `C50_polarised_refuted`, `C50_name_refuted`, `C63_metadata`, `C63_projected_present`, `C64_complete`, `C64_exit_codes`, `C50_columns_refuted`, `C64_single_ion_refuted`

### Props_DoscarTotal

Closed under the global context: `C97_accepted`, `C97_total_only`

### Props_Eigenval

Closed under the global context: `C51_layout`, `C51_metadata`, `C51_unambiguous`, `C51_accepts`, `C65_missing_refuted`, `C65_too_many`, `C65_exit_codes`

### Props_EigenvalTotal

Closed under the global context: `C98_accepted`

### Props_Endings

Closed under the global context: `C88_files`, `C88_strings`, `C88_poscar_predictors_refuted`, `C88_eigenval_handler_refuted`

### Props_Incar

Closed under the global context: `C01_string_round_trip`, `C01_file_round_trip`, `C01_unconditional_refuted`, `C02_comments_survive_string`, `C02_comments_survive_file`, `C03_canonical_tags`, `C04_last_assignment_wins`, `C04_last_assignment_wins_file`, `C05_modify_get_delete_canonical`, `C05_modify_stores_canonical_name`, `C05_any_spelling_refuted`, `C06_get_with_comment_partial`, `C06_second_component_is_value`, `C06_get_comment_refuted`, `C07_layout`, `C07_insertion_order_irrelevant`, `C08_inert_lines`, `C08_text_after_hash`, `C09_two_equals`, `C09_no_equals`, `C09_mixed_types`, `C09_accepted_is_well_formed`, `C09_unsupported_type`, `C09_dict_two_hashes`, `C10_token_typing`, `C10_token_typing_deterministic`, `C11_documented_exits_partial`, `C11_other_exceptions`, `C11_no_crash_refuted`, `C12_incar_sources`, `C12_incar_one_source_refuted`, `C13_validated_tags`, `C13_validation_exact`, `C13_after_edits_refuted`, `C14_grouping`, `C14_trailing_semicolon_refuted`, `C15_finite_map`, `C15_refused_modify`, `C16_dict_round_trip`

### Props_IncarDigits

Closed under the global context: `C93_incar_digits_string`, `C93_incar_digits_file`, `C93_float_text`, `C93_sixteen_digits_refuted`

### Props_Io

Closed under the global context: `C81_incar_get_string`, `C81_poscar_get_string`, `C81_kpoints_get_string`, `C81_incar_appends`, `C81_poscar_appends`, `C81_kpoints_appends`, `C81_line_mode_refuted`, `C81_failures`, `C81_poscar_failures`, `C81_incar_closed`, `C81_poscar_closed`, `C81_kpoints_closed`, `C83_kpoints_path`, `C83_poscar_path`, `C83_incar_path`, `C83_always_closed_refuted`, `C83_open_close`, `C84_reads_the_rest`, `C84_second_object`, `C84_same_twice_refuted`, `C84_rewound_partial`, `C82_incar_crash`, `C82_poscar_crash`, `C82_kpoints_crash`, `C82_atomic_refuted`, `C82_kpoints_atomic_refuted`

### Props_IoCrash

Closed under the global context: `C85_kpoints_points_partial`, `C85_kpoints_values_refuted`, `C85_kpoints_tetra_refuted`

### Props_IoIncar

Closed under the global context: `C85_incar_cut`, `C85_incar_whole_lines`, `C85_incar_values_refuted`

### Props_IoKpoints

Closed under the global context: `C85_kpoints_cut`, `C85_kpoints_crash_partial`, `C85_kpoints_mesh_refuted`, `C85_kpoints_line_refuted`

### Props_IoPoscar

Closed under the global context: `C85_poscar_cut`, `C85_poscar_crash_partial`, `C85_poscar_values_refuted`, `C85_poscar_velocities_refuted`

### Props_IoVasprun

Closed under the global context: `C84_vasprun_rewinds`, `C84_vasprun_twice`, `C84_vasprun_closed`

### Props_Kpoints

Closed under the global context: `C17_explicit_round_trip`, `C17_explicit_stable`, `C18_mesh_round_trip`, `C18_reciprocal_round_trip`, `C18_mixed_refuted`, `C19_line_file_round_trip`, `C19_line_stable`, `C20_channels_agree`, `C20_any_text`, `C20_line_mode_two_points_partial`, `C20_line_mode_refuted`, `C21_cartesian_points`, `C21_cartesian_line_mode`, `C21_bad_tetrahedron`, `C21_fully_automatic`, `C21_accepted_is_supported`, `C22_modify_point`, `C22_delete_point`, `C23_read_count`, `C23_replacing_points_partial`, `C23_delete_refuted`, `C24_rejected_keys`, `C24_exact_keys_refuted`, `C25_kpoints_get_absent_partial`, `C25_kpoints_get_refuted`, `C26_shifts_exact`, `C26_shifts_refuted`, `C12_kpoints_sources`, `C59_edits_keep_entries`, `C59_always_valid_refuted`

### Props_KpointsDict

Closed under the global context: `C87_kpoints_dict`, `C87_kpoints_dict_back_partial`, `C87_kpoints_dict_back_refuted`, `C22_bool_index`

### Props_KpointsDigits

Closed under the global context: `C94_kpoints_digits`

### Props_KpointsStable

Closed under the global context: `C95_kpoints_mesh`, `C95_kpoints_reciprocal`

### Props_KpointsTotal

Closed under the global context: `C92_writes_iff`, `C92_incomplete`, `C92_incomplete_refuted`

### Props_Lattice

Closed under the global context: `C39_dir_to_cart`, `C39_cart_to_dir`, `C39_round_trips`, `C39_singular`, `C39_reciprocal`, `C39_reciprocal_twice`

### Props_Outcar

Closed under the global context: `C46_electronic`, `C46_ionic`, `C46_unfinished`, `C47_last_wins`, `C47_unambiguous`, `C48_run_stats`, `C48_unambiguous`, `C49_elastic`, `C49_nonsymmetrized_refuted`, `C49_symmetry`, `C49_magnetization`, `C49_full_cell`, `C62_exit_codes`, `C62_no_iterations`

### Props_OutcarTotal

Closed under the global context: `C96_outcar`, `C96_outcar_no_source`

### Props_Poscar

Closed under the global context: `C12_poscar_sources`, `C12_poscar_two_sources_refuted`, `C27_species_partial`, `C27_species_of_site_partial`, `C27_zero_count_refuted`, `C28_lattice`, `C28_direct_unchanged`, `C28_cartesian_converted`, `C32_velocities_partial`, `C32_label_ignored_refuted`, `C33_dict_sites_refuted`, `C33_site_objects_partial`, `C34_exit_exact`, `C34_single_blanks_partial`, `C34_extra_blank_refuted`, `C35_modify_site`, `C35_delete_site`

### Props_PoscarDict

Closed under the global context: `C25_poscar_get_absent_partial`, `C25_poscar_get_refuted`, `C35_refused`, `C86_poscar_dict`, `C86_poscar_dict_read`, `C86_poscar_dict_cartesian`, `C86_poscar_dict_cartesian_file`, `C86_poscar_dict_back_refuted`, `C86_poscar_dict_cartesian_site_refuted`

### Props_PoscarDigits

Closed under the global context: `C94_poscar_digits`

### Props_PoscarTotal

Closed under the global context: `C91_writes`, `C91_mixed_refused`, `C91_read_then_write`, `C91_read_sites`

### Props_PoscarWrite

Closed under the global context: `C29_grouped`, `C29_ties`, `C30_conserved`, `C31_direct_round_trip`, `C31_direct_exact`, `C31_cartesian_exact`, `C36_comment_stable`

### Props_Potcar

Closed under the global context: `C53_metadata`, `C53_symbol`, `C53_functional`, `C53_accepts`, `C53_first_header`, `C53_unambiguous`, `C67_no_header`, `C67_no_title`, `C67_unreadable`, `C67_exit_codes`, `C67_no_source`, `C67_no_functional`, `C67_plus_refuted`, `C67_fortran_d_refuted`, `C67_empty_value_refuted`, `C67_semicolon_refuted`

### Props_PotcarTotal

Closed under the global context: `C100_accepted`, `C100_taken`

### Props_Stable

Closed under the global context: `C95_poscar_body`, `C95_poscar_settles`, `C95_first_rewriting_refuted`

### Props_Stream

Closed under the global context: `C41_each_once`, `C42_every_occurrence`, `C43_inverse`, `C44_overrides`, `C45_has_entries`, `C45_count_partial`, `C45_count_refuted`, `C61_default_parses`, `C61_default_meaning`

### Props_Utils

Closed under the global context: `C37_one_destination`, `C37_exit10_only_for_sources`, `C60_refused_write_refuted`, `C60_refused_write_handler_partial`, `C38_one_token`, `C38_half_unit`, `C38_reread`, `C38_lines`, `C38_exact`, `C40_lines_exact`, `C40_once_partial`, `C40_contains_refuted`, `C40_no_filter`

### Props_Vasprun

Closed under the global context: `C54_vasprun_all_steps`, `C54_vasprun_initial_step`, `C54_vasprun_last_step`, `C68_vasprun_one_atom_two_steps_refuted`, `C68_vasprun_single_step_twice_refuted`, `C54_vasprun_status`, `C54_vasprun_without_extract_all`, `C56_vasprun_eigenvalues`, `C56_vasprun_projectors`, `C56_vasprun_velocities`, `C56_vasprun_eigenvalue_checks`, `C56_vasprun_projector_checks`

### Props_VasprunAgree

Closed under the global context: `C55_vasprun_parsers_agree`, `C55_vasprun_dielectric_agree`, `C55_vasprun_event_steps`, `C55_vasprun_steps_agree`

### Props_VasprunData

Closed under the global context: `C73_vasprun_dos`, `C73_vasprun_dos_specific`, `C73_vasprun_fermi`, `C73_vasprun_dos_sum_refuted`, `C73_vasprun_dos_wide_refuted`, `C74_vasprun_kpoints`, `C74_vasprun_divisions`, `C74_vasprun_kpoints_specific`, `C75_vasprun_species`, `C75_vasprun_unknown_species`, `C75_vasprun_new_names_refuted`, `C76_vasprun_parameters`, `C77_vasprun_dielectrics`, `C77_vasprun_two_functions_refuted`

### Props_VasprunData2

Closed under the global context: `C78_vasprun_hessian`, `C78_vasprun_dynmat`, `C78_vasprun_born`, `C78_vasprun_born_twice_refuted`, `C79_vasprun_lattice`, `C79_vasprun_lattice_mixed_refuted`, `C79_vasprun_lattice_status`, `C79_vasprun_dict`, `C79_vasprun_dict_version_refuted`, `C79_vasprun_dict_entries`

### Props_VasprunDiffer

Closed under the global context: `C71_vasprun_epsilon_refuted`, `C71_vasprun_single_step_refuted`, `C71_vasprun_one_atom_refuted`, `C71_vasprun_dos_mesh_refuted`, `C71_vasprun_eigenvalues_twice_refuted`, `C72_vasprun_event_pieces`, `C72_vasprun_late_parameter_refuted`, `C72_vasprun_late_energy_refuted`

### Props_VasprunEventExits

Closed under the global context: `C80_vasprun_event_reasons`

### Props_VasprunExits

Closed under the global context: `C80_vasprun_regular_exits`, `C80_vasprun_event_exits`, `C80_vasprun_init_exits`, `C80_vasprun_species_code_refuted`

### Props_VasprunFile

Closed under the global context: `C57_vasprun_energies`, `C57_vasprun_missing_entry`, `C57_vasprun_refused`, `C58_vasprun_unclosed_is_truncated`, `C58_vasprun_closed_is_complete`, `C58_vasprun_small_is_truncated`, `C58_vasprun_far_tag_is_truncated`, `C58_vasprun_method`, `C58_vasprun_sources`

### Props_VasprunMore

Closed under the global context: `C69_vasprun_overflow_scalar`, `C69_vasprun_overflow_parameter`, `C69_vasprun_overflow_column`, `C69_vasprun_overflow_table_refuted`, `C69_vasprun_overflow_document_refuted`, `C70_vasprun_version`, `C70_vasprun_version_source`
