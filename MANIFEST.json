{
 "claims": [
  {
   "property": "C01",
   "status": "proved",
   "theorems": [
    "C01_string_round_trip",
    "C01_file_round_trip",
    "C01_unconditional_refuted"
   ],
   "note": "Round trip proved for string and file channels for every accepted text whose values print faithfully; the two excluded kinds of value (list containing a logical, overflowed float) are shown to be genuine exceptions by C01_unconditional_refuted. Tags containing the three Latin-1 characters whose upper case leaves Latin-1 are outside the character model."
  },
  {
   "property": "C02",
   "status": "proved",
   "theorems": [
    "C02_comments_survive_string",
    "C02_comments_survive_file"
   ],
   "note": ""
  },
  {
   "property": "C03",
   "status": "proved",
   "theorems": [
    "C03_canonical_tags"
   ],
   "note": ""
  },
  {
   "property": "C04",
   "status": "proved",
   "theorems": [
    "C04_last_assignment_wins",
    "C04_last_assignment_wins_file"
   ],
   "note": ""
  },
  {
   "property": "C05",
   "status": "partial",
   "theorems": [
    "C05_modify_get_delete_canonical",
    "C05_modify_stores_canonical_name",
    "C05_any_spelling_refuted"
   ],
   "note": "False as stated: get/delete do not normalise the tag (C05_any_spelling_refuted). Proved for canonical spellings, and modify's canonicalisation proved for all spellings."
  },
  {
   "property": "C06",
   "status": "partial",
   "theorems": [
    "C06_get_with_comment_partial",
    "C06_second_component_is_value",
    "C06_get_comment_refuted"
   ],
   "note": "False: the second component is the value, not the comment (incar.py:367). Proved that the first component is right and the second is always the value."
  },
  {
   "property": "C07",
   "status": "proved",
   "theorems": [
    "C07_layout",
    "C07_insertion_order_irrelevant"
   ],
   "note": ""
  },
  {
   "property": "C08",
   "status": "proved",
   "theorems": [
    "C08_inert_lines",
    "C08_text_after_hash"
   ],
   "note": ""
  },
  {
   "property": "C09",
   "status": "proved",
   "theorems": [
    "C09_two_equals",
    "C09_no_equals",
    "C09_mixed_types",
    "C09_accepted_is_well_formed",
    "C09_unsupported_type",
    "C09_dict_two_hashes"
   ],
   "note": ""
  },
  {
   "property": "C10",
   "status": "proved",
   "theorems": [
    "C10_token_typing",
    "C10_token_typing_deterministic"
   ],
   "note": ""
  },
  {
   "property": "C11",
   "status": "partial",
   "theorems": [
    "C11_documented_exits_partial",
    "C11_other_exceptions",
    "C11_no_crash_refuted"
   ],
   "note": "False as stated: 'inf'/'nan' tokens raise ValueError and an empty tag raises IndexError (C11_no_crash_refuted); C11_other_exceptions proves these are the only two escapes."
  },
  {
   "property": "C12",
   "status": "partial",
   "theorems": [
    "C12_incar_sources",
    "C12_incar_one_source_refuted",
    "C12_kpoints_sources",
    "C12_poscar_sources",
    "C12_poscar_two_sources_refuted"
   ],
   "note": "Exact truth table proved for Incar, Kpoints and Poscar; the property itself is refuted: dict+path (and others) are accepted."
  },
  {
   "property": "C13",
   "status": "partial",
   "theorems": [
    "C13_validated_tags",
    "C13_validation_exact",
    "C13_after_edits_refuted"
   ],
   "note": "Constructor part proved exactly; refuted after modify(), which never re-validates."
  },
  {
   "property": "C14",
   "status": "partial",
   "theorems": [
    "C14_grouping",
    "C14_trailing_semicolon_refuted"
   ],
   "note": "Grouping proved; the trailing ';' half is refuted for strings (exit 102)."
  },
  {
   "property": "C15",
   "status": "proved",
   "theorems": [
    "C15_finite_map",
    "C15_refused_modify"
   ],
   "note": ""
  },
  {
   "property": "C16",
   "status": "proved",
   "theorems": [
    "C16_dict_round_trip"
   ],
   "note": ""
  },
  {
   "property": "C17",
   "status": "proved",
   "theorems": [
    "C17_explicit_round_trip",
    "C17_explicit_stable"
   ],
   "note": ""
  },
  {
   "property": "C18",
   "status": "partial",
   "theorems": [
    "C18_mesh_round_trip",
    "C18_reciprocal_round_trip",
    "C18_mixed_refuted"
   ],
   "note": "Mesh and reciprocal-vector round trips are proved in full; C18_mixed_refuted shows that a Gamma mesh carrying generating vectors validates but is written in a form that cannot be read."
  },
  {
   "property": "C19",
   "status": "proved",
   "theorems": [
    "C19_line_file_round_trip",
    "C19_line_stable"
   ],
   "note": ""
  },
  {
   "property": "C20",
   "status": "partial",
   "theorems": [
    "C20_channels_agree",
    "C20_any_text",
    "C20_line_mode_two_points_partial",
    "C20_line_mode_refuted"
   ],
   "note": "Proved for every mode except line mode with more than two points, where C20_line_mode_refuted proves the string channel always differs (extra empty points)."
  },
  {
   "property": "C21",
   "status": "proved",
   "theorems": [
    "C21_cartesian_points",
    "C21_cartesian_line_mode",
    "C21_bad_tetrahedron",
    "C21_fully_automatic",
    "C21_accepted_is_supported"
   ],
   "note": ""
  },
  {
   "property": "C22",
   "status": "proved",
   "theorems": [
    "C22_modify_point",
    "C22_delete_point",
    "C22_bool_index"
   ],
   "note": ""
  },
  {
   "property": "C23",
   "status": "partial",
   "theorems": [
    "C23_read_count",
    "C23_replacing_points_partial",
    "C23_delete_refuted"
   ],
   "note": "Proved on reading and for replacing the point list with the same number; delete_point does not update num_kpoints (C23_delete_refuted)."
  },
  {
   "property": "C24",
   "status": "partial",
   "theorems": [
    "C24_rejected_keys",
    "C24_exact_keys_refuted"
   ],
   "note": "Rejection of unknown keys proved; the exact-key-set half is refuted."
  },
  {
   "property": "C25",
   "status": "partial",
   "theorems": [
    "C25_kpoints_get_absent_partial",
    "C25_kpoints_get_refuted",
    "C25_poscar_get_absent_partial",
    "C25_poscar_get_refuted"
   ],
   "note": "False as stated for get: None for absent tags, AttributeError for every existing tag (C25_kpoints_get_refuted, C25_poscar_get_refuted)."
  },
  {
   "property": "C26",
   "status": "partial",
   "theorems": [
    "C26_shifts_exact",
    "C26_shifts_refuted"
   ],
   "note": "Exact behaviour of the shift line proved (C26_shifts_exact); the property as stated refuted."
  },
  {
   "property": "C27",
   "status": "partial",
   "theorems": [
    "C27_species_partial",
    "C27_species_of_site_partial",
    "C27_zero_count_refuted"
   ],
   "note": "Proved for every file whose counts before the last positive one are positive (trailing zeros allowed), as the list of species and per site; C27_zero_count_refuted proves that a zero count followed by a positive one always shifts the species."
  },
  {
   "property": "C28",
   "status": "proved",
   "theorems": [
    "C28_lattice",
    "C28_direct_unchanged",
    "C28_cartesian_converted"
   ],
   "note": "Direct coordinates unchanged and the lattice scaled in binary64 and in exact arithmetic; the defining equation d*L = scaled cartesian input is proved over exact rationals (numpy's inverse and dot are parameters in binary64)."
  },
  {
   "property": "C29",
   "status": "proved",
   "theorems": [
    "C29_grouped",
    "C29_ties"
   ],
   "note": "Both number systems; header, counts, order of the groups (C29_ties: stable by first appearance), stability within a species and permutation."
  },
  {
   "property": "C30",
   "status": "proved",
   "theorems": [
    "C30_conserved"
   ],
   "note": "Both number systems."
  },
  {
   "property": "C31",
   "status": "proved",
   "theorems": [
    "C31_direct_round_trip",
    "C31_direct_exact",
    "C31_cartesian_exact"
   ],
   "note": "Direct output: binary64 (every number is the nearest to the printed decimal) and exact rationals (half a unit). Cartesian output: exact rationals, for lattices still non-singular at the printed precision."
  },
  {
   "property": "C32",
   "status": "partial",
   "theorems": [
    "C32_velocities_partial",
    "C32_label_ignored_refuted"
   ],
   "note": "The label of the velocities is ignored: C32_velocities_partial proves what is stored in terms of the label of the positions, C32_label_ignored_refuted that no file with differing labels is read as intended."
  },
  {
   "property": "C33",
   "status": "partial",
   "theorems": [
    "C33_dict_sites_refuted",
    "C33_site_objects_partial"
   ],
   "note": "False: sites given as dictionaries are kept as dictionaries and can never be written (proved for every such dictionary). Site objects are converted correctly (C33_site_objects_partial)."
  },
  {
   "property": "C34",
   "status": "partial",
   "theorems": [
    "C34_exit_exact",
    "C34_single_blanks_partial",
    "C34_extra_blank_refuted"
   ],
   "note": "C34_exit_exact characterises exit 301 for every file; proved for single blanks; any leading or double blank refutes it."
  },
  {
   "property": "C35",
   "status": "proved",
   "theorems": [
    "C35_modify_site",
    "C35_delete_site",
    "C35_refused"
   ],
   "note": ""
  },
  {
   "property": "C36",
   "status": "proved",
   "theorems": [
    "C36_comment_stable"
   ],
   "note": "For the same conserve_order setting and species without '#'."
  },
  {
   "property": "C37",
   "status": "proved",
   "theorems": [
    "C37_one_destination",
    "C37_exit10_only_for_sources"
   ],
   "note": ""
  },
  {
   "property": "C38",
   "status": "proved",
   "theorems": [
    "C38_one_token",
    "C38_half_unit",
    "C38_reread",
    "C38_lines",
    "C38_exact"
   ],
   "note": ""
  },
  {
   "property": "C39",
   "status": "proved",
   "theorems": [
    "C39_dir_to_cart",
    "C39_cart_to_dir",
    "C39_round_trips",
    "C39_singular",
    "C39_reciprocal",
    "C39_reciprocal_twice"
   ],
   "note": "In exact arithmetic, over every field with decidable equality (rationals, reals) and any value for pi: rounding is not modelled. C39_dir_to_cart and C39_cart_to_dir say what the functions compute, C39_round_trips that they are inverse, C39_reciprocal the products 2 pi delta_ij (and uniqueness), C39_reciprocal_twice the reciprocal of the reciprocal lattice and its volume, C39_singular the exception."
  },
  {
   "property": "C40",
   "status": "partial",
   "theorems": [
    "C40_lines_exact",
    "C40_once_partial",
    "C40_contains_refuted",
    "C40_no_filter"
   ],
   "note": "Exact multiset of returned lines proved; duplicates and string identifiers refute the plain statement."
  },
  {
   "property": "C41",
   "status": "proved",
   "theorems": [
    "C41_each_once"
   ],
   "note": "For every regular expression engine and configuration."
  },
  {
   "property": "C42",
   "status": "proved",
   "theorems": [
    "C42_every_occurrence"
   ],
   "note": ""
  },
  {
   "property": "C43",
   "status": "proved",
   "theorems": [
    "C43_inverse"
   ],
   "note": ""
  },
  {
   "property": "C44",
   "status": "proved",
   "theorems": [
    "C44_overrides"
   ],
   "note": "Entries of other kinds than error/warning are silently ignored, which the statement makes visible."
  },
  {
   "property": "C45",
   "status": "partial",
   "theorems": [
    "C45_has_entries",
    "C45_count_partial",
    "C45_count_refuted"
   ],
   "note": "has_entries proved in full; the documented count of unique streams holds without history and is proved wrong with history whenever a trigger is found twice."
  },
  {
   "property": "C46",
   "status": "proved",
   "theorems": [
    "C46_electronic",
    "C46_ionic",
    "C46_unfinished"
   ],
   "note": "Electronic/NELM flags, ionic table, and the crash-point corollary."
  },
  {
   "property": "C47",
   "status": "proved",
   "theorems": [
    "C47_last_wins",
    "C47_unambiguous"
   ],
   "note": ""
  },
  {
   "property": "C48",
   "status": "proved",
   "theorems": [
    "C48_run_stats",
    "C48_unambiguous"
   ],
   "note": ""
  },
  {
   "property": "C49",
   "status": "partial",
   "theorems": [
    "C49_elastic",
    "C49_nonsymmetrized_refuted",
    "C49_symmetry",
    "C49_magnetization",
    "C49_full_cell"
   ],
   "note": "Elastic (symmetrized, total), symmetry, magnetization and full-cell tables are proved; the documented key of the non-symmetrized moduli is refuted: the code stores them under 'non_symmetrized' and the documented key stays None (outcar.py:46, 176). Rows of different lengths (numpy object arrays) are outside the model."
  },
  {
   "property": "C50",
   "status": "partial",
   "theorems": [
    "C50_total",
    "C50_projected",
    "C50_polarised_refuted",
    "C50_name_refuted",
    "C50_columns_refuted"
   ],
   "note": "Proved for every file with one component per quantity (documented), and the exact attribution for every layout (overlapping); with two or four components the attribution is refuted for every row of distinct numbers, by C50_polarised_refuted and C50_columns_refuted. One orbital name of the 37-column layout is refuted."
  },
  {
   "property": "C51",
   "status": "proved",
   "theorems": [
    "C51_layout",
    "C51_metadata",
    "C51_unambiguous",
    "C51_accepts"
   ],
   "note": "For texts whose only line-ending character is the newline (str.splitlines also splits at others; the hypothesis newlines_only says so)."
  },
  {
   "property": "C52",
   "status": "partial",
   "theorems": [
    "C52_grid",
    "C52_unambiguous",
    "C52_density_unambiguous",
    "C52_accepts",
    "C52_exact",
    "C52_left_handed_refuted"
   ],
   "note": "Layout, acceptance, uniqueness and exact volume are proved for every file; 'divided by the cell volume' is refuted for left-handed cells (C52_left_handed_refuted): the code divides by the signed triple product. Binary64 rounding of numpy's dot and cross is a parameter."
  },
  {
   "property": "C53",
   "status": "proved",
   "theorems": [
    "C53_metadata",
    "C53_symbol",
    "C53_functional",
    "C53_accepts",
    "C53_first_header",
    "C53_unambiguous"
   ],
   "note": "All texts; the conversions of the numbers are those of Python's float/int (PyNum)."
  },
  {
   "property": "C54",
   "status": "proved",
   "theorems": [
    "C54_vasprun_all_steps",
    "C54_vasprun_initial_step",
    "C54_vasprun_last_step",
    "C54_vasprun_status",
    "C54_vasprun_without_extract_all"
   ],
   "note": "All documents of the stated form. Two kinds of run are excluded from 'last'/'all' here and are the subject of C68. lxml is not modelled: a document is its tree of elements."
  },
  {
   "property": "C55",
   "status": "proved",
   "theorems": [
    "C55_vasprun_parsers_agree",
    "C55_vasprun_dielectric_agree",
    "C55_vasprun_event_steps",
    "C55_vasprun_steps_agree"
   ],
   "note": "For documents in the grammar is_run of VasprunDoc.v (interpolated bands, several dielectric functions and steps without stress are outside it, the parsers differ there). C55_vasprun_parsers_agree: all data but the ionic steps and the dielectric function; C55_vasprun_dielectric_agree: the dielectric function; C55_vasprun_event_steps: the steps after the event parser; C55_vasprun_steps_agree: equality of the accessors with the exact exceptions (see C68, C71)."
  },
  {
   "property": "C56",
   "status": "proved",
   "theorems": [
    "C56_vasprun_eigenvalues",
    "C56_vasprun_projectors",
    "C56_vasprun_velocities",
    "C56_vasprun_eigenvalue_checks",
    "C56_vasprun_projector_checks"
   ],
   "note": "All documents that are read and whose rows are numbers. lxml is not modelled: a document is its tree of elements."
  },
  {
   "property": "C57",
   "status": "proved",
   "theorems": [
    "C57_vasprun_energies",
    "C57_vasprun_missing_entry",
    "C57_vasprun_refused"
   ],
   "note": "Proved for the regular parser; all statuses, types and both nosc settings. lxml is not modelled: a document is its tree of elements."
  },
  {
   "property": "C58",
   "status": "proved",
   "theorems": [
    "C58_vasprun_unclosed_is_truncated",
    "C58_vasprun_closed_is_complete",
    "C58_vasprun_small_is_truncated",
    "C58_vasprun_far_tag_is_truncated",
    "C58_vasprun_method",
    "C58_vasprun_sources"
   ],
   "note": "All contents; the two lxml parsers are arbitrary functions."
  },
  {
   "property": "C59",
   "status": "partial",
   "theorems": [
    "C59_edits_keep_entries",
    "C59_always_valid_refuted"
   ],
   "note": "Entry preservation and the possible validation outcomes proved for all histories; that the object stays valid is refuted."
  },
  {
   "property": "C60",
   "status": "partial",
   "theorems": [
    "C60_refused_write_refuted",
    "C60_refused_write_handler_partial"
   ],
   "note": "False for file paths: the file is opened for writing before validation (refuted for every invalid Kpoints object); proved for handlers."
  },
  {
   "property": "C61",
   "status": "proved",
   "theorems": [
    "C61_default_parses",
    "C61_default_meaning"
   ],
   "note": "With the engine for plain patterns, which covers every pattern of stream.yml."
  },
  {
   "property": "C62",
   "status": "proved",
   "theorems": [
    "C62_exit_codes",
    "C62_no_iterations"
   ],
   "note": ""
  },
  {
   "property": "C63",
   "status": "proved",
   "theorems": [
    "C63_metadata",
    "C63_projected_present"
   ],
   "note": ""
  },
  {
   "property": "C64",
   "status": "partial",
   "theorems": [
    "C64_complete",
    "C64_exit_codes",
    "C64_single_ion_refuted"
   ],
   "note": "Proved for the total table and for two ions or more; a file with one ion cut inside its projected table is accepted (refuted)."
  },
  {
   "property": "C65",
   "status": "partial",
   "theorems": [
    "C65_missing_refuted",
    "C65_too_many",
    "C65_exit_codes"
   ],
   "note": "Too many k-points and the exit codes are proved; the first part is refuted for every file: each missing k-point is silently reported as zeros (C65_missing_refuted)."
  },
  {
   "property": "C66",
   "status": "partial",
   "theorems": [
    "C66_wrong_count",
    "C66_third_set_refuted",
    "C66_junk_refuted",
    "C66_no_empty_line",
    "C66_exit_codes"
   ],
   "note": "Wrong counts in a data set that is used, the missing empty line and the exit codes are proved; refuted: three data sets (a non-collinear file cut inside the third) are accepted as non-magnetic, and text after a complete data set is ignored."
  },
  {
   "property": "C67",
   "status": "partial",
   "theorems": [
    "C67_no_header",
    "C67_no_title",
    "C67_unreadable",
    "C67_exit_codes",
    "C67_no_source",
    "C67_no_functional",
    "C67_plus_refuted",
    "C67_fortran_d_refuted",
    "C67_empty_value_refuted",
    "C67_semicolon_refuted"
   ],
   "note": "Errors and exit codes are proved. Refuted of the code: exponents with a plus sign are refused (C67_plus_refuted), Fortran D exponents are dropped (C67_fortran_d_refuted), an empty text value takes over the next line (C67_empty_value_refuted), a field right after a semicolon is lost (C67_semicolon_refuted)."
  },
  {
   "property": "C68",
   "status": "partial",
   "theorems": [
    "C68_vasprun_one_atom_two_steps_refuted",
    "C68_vasprun_single_step_twice_refuted"
   ],
   "note": "False as stated. C68_vasprun_one_atom_two_steps_refuted: in every one-atom run with two steps 'last' gives the positions and forces of the first step. C68_vasprun_single_step_twice_refuted: with one step 'all' has two entries. For all other runs it is C54."
  },
  {
   "property": "C69",
   "status": "partial",
   "theorems": [
    "C69_vasprun_overflow_scalar",
    "C69_vasprun_overflow_parameter",
    "C69_vasprun_overflow_column",
    "C69_vasprun_overflow_table_refuted",
    "C69_vasprun_overflow_document_refuted"
   ],
   "note": "Exit 509 is proved for scalars and columns; refuted for tables (C69_vasprun_overflow_table_refuted, C69_vasprun_overflow_document_refuted): rows become zeros or copies of one number without any message."
  },
  {
   "property": "C70",
   "status": "proved",
   "theorems": [
    "C70_vasprun_version",
    "C70_vasprun_version_source"
   ],
   "note": "All texts."
  },
  {
   "property": "C71",
   "status": "partial",
   "theorems": [
    "C71_vasprun_epsilon_refuted",
    "C71_vasprun_single_step_refuted",
    "C71_vasprun_one_atom_refuted",
    "C71_vasprun_dos_mesh_refuted",
    "C71_vasprun_eigenvalues_twice_refuted"
   ],
   "note": "False as stated. C71_vasprun_epsilon_refuted (every run: TypeError or KeyError after the event parser), C71_vasprun_single_step_refuted (every run of one step), C71_vasprun_one_atom_refuted, C71_vasprun_dos_mesh_refuted, C71_vasprun_eigenvalues_twice_refuted. What does agree is C55."
  },
  {
   "property": "C72",
   "status": "partial",
   "theorems": [
    "C72_vasprun_event_pieces",
    "C72_vasprun_late_parameter_refuted",
    "C72_vasprun_late_energy_refuted"
   ],
   "note": "C72_vasprun_event_pieces: true when the texts of the fifteen elements used at their start event have been read; refuted otherwise: a parameter is silently lost (C72_vasprun_late_parameter_refuted) or a TypeError is raised (C72_vasprun_late_energy_refuted)."
  },
  {
   "property": "C73",
   "status": "partial",
   "theorems": [
    "C73_vasprun_dos",
    "C73_vasprun_dos_specific",
    "C73_vasprun_fermi",
    "C73_vasprun_dos_sum_refuted",
    "C73_vasprun_dos_wide_refuted"
   ],
   "note": "Energies, densities per spin, partial densities and Fermi level are proved. Refuted: with two spins the part 'total' holds only energies and the Fermi energy, no density (C73_vasprun_dos_sum_refuted); partial densities with another number of columns than ten become zeros silently (C73_vasprun_dos_wide_refuted). lxml is not modelled: a document is its tree of elements."
  },
  {
   "property": "C74",
   "status": "proved",
   "theorems": [
    "C74_vasprun_kpoints",
    "C74_vasprun_divisions",
    "C74_vasprun_kpoints_specific"
   ],
   "note": "All documents that are read and whose rows are numbers. lxml is not modelled: a document is its tree of elements."
  },
  {
   "property": "C75",
   "status": "partial",
   "theorems": [
    "C75_vasprun_species",
    "C75_vasprun_unknown_species",
    "C75_vasprun_new_names_refuted"
   ],
   "note": "Proved for the elements of the table; refuted for the names given since 2012 to elements 113 to 118 (the table has their provisional names): Nh, Fl, Mc, Lv, Ts, Og end with exit code 506 (C75_vasprun_new_names_refuted). lxml is not modelled: a document is its tree of elements."
  },
  {
   "property": "C76",
   "status": "proved",
   "theorems": [
    "C76_vasprun_parameters"
   ],
   "note": "All documents that are read. lxml is not modelled: a document is its tree of elements."
  },
  {
   "property": "C77",
   "status": "partial",
   "theorems": [
    "C77_vasprun_dielectrics",
    "C77_vasprun_two_functions_refuted"
   ],
   "note": "Proved for documents with one dielectric function; refuted for two (C77_vasprun_two_functions_refuted): the rows of both are concatenated. lxml is not modelled: a document is its tree of elements."
  },
  {
   "property": "C78",
   "status": "partial",
   "theorems": [
    "C78_vasprun_hessian",
    "C78_vasprun_dynmat",
    "C78_vasprun_born",
    "C78_vasprun_born_twice_refuted"
   ],
   "note": "Proved for Born charges in one step; refuted for two steps (C78_vasprun_born_twice_refuted): each 'tensor' has six rows, those of two ions. lxml is not modelled: a document is its tree of elements."
  },
  {
   "property": "C79",
   "status": "partial",
   "theorems": [
    "C79_vasprun_lattice",
    "C79_vasprun_lattice_mixed_refuted",
    "C79_vasprun_lattice_status",
    "C79_vasprun_dict",
    "C79_vasprun_dict_version_refuted",
    "C79_vasprun_dict_entries"
   ],
   "note": "get_lattice proved for all runs but one; C79_vasprun_lattice_mixed_refuted: one atom and two steps gives the cell of the second step with the positions of the first. get_dict determines everything but the version (C79_vasprun_dict, C79_vasprun_dict_version_refuted). lxml is not modelled: a document is its tree of elements."
  },
  {
   "property": "C80",
   "status": "partial",
   "theorems": [
    "C80_vasprun_event_reasons",
    "C80_vasprun_regular_exits",
    "C80_vasprun_event_exits",
    "C80_vasprun_init_exits",
    "C80_vasprun_species_code_refuted"
   ],
   "note": "C80_vasprun_regular_exits: every code of the regular parser has its reason in the document. C80_vasprun_event_exits, C80_vasprun_init_exits: the possible codes for all events and arguments. C80_vasprun_event_reasons: for every sequence of events, well formed or not, the event at which the event parser exits, and what the events before it lack (specification: setting, inside, mesh_read, collecting; 505 only says that bands were to be stored and NBANDS was known, not how many rows there were). Refuted: the regular parser never gives 501 (C80_vasprun_species_code_refuted); a missing list of atoms is exit code 503, the code for NBANDS. lxml is not modelled: a document is its tree of elements."
  },
  {
   "property": "C81",
   "status": "partial",
   "theorems": [
    "C81_incar_get_string",
    "C81_poscar_get_string",
    "C81_kpoints_get_string",
    "C81_incar_appends",
    "C81_poscar_appends",
    "C81_kpoints_appends",
    "C81_line_mode_refuted",
    "C81_failures",
    "C81_poscar_failures",
    "C81_incar_closed",
    "C81_poscar_closed",
    "C81_kpoints_closed"
   ],
   "note": "Proved for INCAR, POSCAR and for KPOINTS but in line mode; C81_line_mode_refuted: after a KPOINTS in line mode the position is one past the end, the next write leaves a NUL character in between. get_string is proved to be what the write calls leave in a StringIO. C81_*_closed: a closed handler makes write raise ValueError and stays as it was."
  },
  {
   "property": "C82",
   "status": "proved",
   "theorems": [
    "C82_incar_crash",
    "C82_poscar_crash",
    "C82_kpoints_crash",
    "C82_atomic_refuted",
    "C82_kpoints_atomic_refuted"
   ],
   "note": "Exact: the contents a crash can leave are the old one and the beginnings of the new text (C82_*_crash, both directions). So writing is not atomic (C82_atomic_refuted, C82_kpoints_atomic_refuted). The file system below the buffers is not modelled: what was flushed is on disk."
  },
  {
   "property": "C83",
   "status": "partial",
   "theorems": [
    "C83_kpoints_path",
    "C83_poscar_path",
    "C83_incar_path",
    "C83_always_closed_refuted",
    "C83_open_close"
   ],
   "note": "A write that returns has closed the file; C83_always_closed_refuted: one that raises (e.g. an object that does not validate) leaves it open, until Python collects it."
  },
  {
   "property": "C84",
   "status": "partial",
   "theorems": [
    "C84_reads_the_rest",
    "C84_second_object",
    "C84_same_twice_refuted",
    "C84_rewound_partial",
    "C84_vasprun_rewinds",
    "C84_vasprun_twice",
    "C84_vasprun_closed"
   ],
   "note": "C84_reads_the_rest for all parsers as functions of the text read. Vasprun rewinds (C84_vasprun_rewinds, C84_vasprun_twice). Refuted for the others: the second INCAR made from one handler is empty, the other classes raise (C84_second_object, C84_same_twice_refuted); after seek(0) the object is the same (C84_rewound_partial)."
  },
  {
   "property": "C85",
   "status": "partial",
   "theorems": [
    "C85_kpoints_points_partial",
    "C85_kpoints_values_refuted",
    "C85_kpoints_tetra_refuted",
    "C85_incar_cut",
    "C85_incar_whole_lines",
    "C85_incar_values_refuted",
    "C85_kpoints_cut",
    "C85_kpoints_crash_partial",
    "C85_kpoints_mesh_refuted",
    "C85_kpoints_line_refuted",
    "C85_poscar_cut",
    "C85_poscar_crash_partial",
    "C85_poscar_values_refuted",
    "C85_poscar_velocities_refuted"
   ],
   "note": "INCAR: C85_incar_cut, C85_incar_whole_lines: exactly the first tags, and perhaps one more whose value is what the beginning of its text denotes; so C85_incar_values_refuted. KPOINTS: C85_kpoints_cut (any text), C85_kpoints_crash_partial (any written object, all modes): same comment, mode, centering, count and generating vectors; explicit points all there and unchanged but for the last (C85_kpoints_points_partial also compares with the object), tetrahedra absent, none, or unchanged but for the last; divisions unchanged unless the shifts are lost; in line mode the first points. Refuted in full: C85_kpoints_values_refuted, C85_kpoints_tetra_refuted, C85_kpoints_mesh_refuted (divisions 4 4 12 read as 4 4 or 4 4 1), C85_kpoints_line_refuted (a shorter path). POSCAR: C85_poscar_cut (any text), C85_poscar_crash_partial: same comment, unitcell and species; every site but the last has its position and flags; velocities and predictors are absent for all or right for all but the last (C85_poscar_values_refuted, C85_poscar_velocities_refuted)."
  },
  {
   "property": "C86",
   "status": "partial",
   "theorems": [
    "C86_poscar_dict",
    "C86_poscar_dict_read",
    "C86_poscar_dict_cartesian",
    "C86_poscar_dict_cartesian_file",
    "C86_poscar_dict_back_refuted",
    "C86_poscar_dict_cartesian_site_refuted"
   ],
   "note": "Proved for what is shown (all files, both forms; the cartesian form in exact arithmetic). False as stated: an object made from the dictionary cannot be written (C86_poscar_dict_back_refuted), and a cartesian site put in by modify is multiplied by the lattice once more (C86_poscar_dict_cartesian_site_refuted)."
  },
  {
   "property": "C87",
   "status": "partial",
   "theorems": [
    "C87_kpoints_dict",
    "C87_kpoints_dict_back_partial",
    "C87_kpoints_dict_back_refuted"
   ],
   "note": "Proved for what is shown. Giving the dictionary back works for meshes only (C87_kpoints_dict_back_partial); with points the object cannot be written (C87_kpoints_dict_back_refuted)."
  },
  {
   "property": "C88",
   "status": "partial",
   "theorems": [
    "C88_files",
    "C88_strings",
    "C88_poscar_predictors_refuted",
    "C88_eigenval_handler_refuted"
   ],
   "note": "Proved for paths (all nine readers) and for INCAR and KPOINTS strings. False for POSCAR texts given as strings or handlers (predictors are dropped, C88_poscar_predictors_refuted) and for EIGENVAL handlers (C88_eigenval_handler_refuted)."
  },
  {
   "property": "C89",
   "status": "proved",
   "theorems": [
    "C89_kpoints",
    "C89_doscar",
    "C89_poscar"
   ],
   "note": "The species line of POSCAR is split at single blanks by is_numbers, hence its hypothesis; C34_extra_blank_refuted shows it is needed."
  },
  {
   "property": "C90",
   "status": "proved",
   "theorems": [
    "C90_kpoints_explicit",
    "C90_kpoints_automatic",
    "C90_kpoints_line",
    "C90_kpoints_count",
    "C90_poscar",
    "C90_doscar",
    "C90_eigenval_header",
    "C90_eigenval_rows"
   ],
   "note": "For EIGENVAL the header and all table rows; for KPOINTS all three modes; for POSCAR scaling, lattice, counts and coordinates."
  },
  {
   "property": "C91",
   "status": "proved",
   "theorems": [
    "C91_writes",
    "C91_mixed_refused",
    "C91_read_then_write",
    "C91_read_sites"
   ],
   "note": "keeps_sizes is a hypothesis on the number system only; exact_keeps_sizes shows it for exact arithmetic."
  },
  {
   "property": "C92",
   "status": "partial",
   "theorems": [
    "C92_writes_iff",
    "C92_incomplete",
    "C92_incomplete_refuted"
   ],
   "note": "Proved as an equivalence for all files. The plain reading (every accepted file can be written) is false: C92_incomplete_refuted lists a bare Tetrahedra line, two divisions, one shift, a two-component vector, a two-coordinate path point, and any path with a blank line given as a string."
  },
  {
   "property": "C93",
   "status": "proved",
   "theorems": [
    "C93_incar_digits_string",
    "C93_incar_digits_file",
    "C93_float_text",
    "C93_sixteen_digits_refuted"
   ],
   "note": "For all texts, tags and decimals below 10^15 with exponent in [-250, 250], through the model of float() (correct rounding to binary64) and of repr (shortest digits that round back). C93_sixteen_digits_refuted shows that the digit bound cannot simply be dropped."
  },
  {
   "property": "C94",
   "status": "proved",
   "theorems": [
    "C94_kpoints_digits",
    "C94_poscar_digits"
   ],
   "note": "POSCAR: site coordinates, for every binary64 arithmetic (whatever its matrix routines do); KPOINTS: coordinates and weights of an explicit list with a plain comment. Lattice vectors (written multiplied by the scaling) and the other KPOINTS modes are covered to within half a unit of the last digit by C17-C20, C31."
  },
  {
   "property": "C95",
   "status": "partial",
   "theorems": [
    "C95_kpoints_mesh",
    "C95_kpoints_reciprocal",
    "C95_poscar_body",
    "C95_poscar_settles",
    "C95_first_rewriting_refuted"
   ],
   "note": "POSCAR: C95_poscar_body (everything below the comment, conserve_order may be switched on after a default writing), C95_poscar_settles (the second text is a fixed point of reading and writing through any channel); KPOINTS: C95_kpoints_mesh, C95_kpoints_reciprocal (explicit lists and line mode: C17_explicit_stable, C19_line_stable). What is false is stated as C95_first_rewriting_refuted: a comment with '#' or outer blanks changes at the first rewriting. Missing: cartesian coordinates in binary64 (they go through numpy's dot and inv)."
  },
  {
   "property": "C96",
   "status": "proved",
   "theorems": [
    "C96_outcar",
    "C96_outcar_no_source"
   ],
   "note": "An equivalence for all texts (C96_outcar; C96_outcar_no_source when there is nothing to read). Rows of elastic moduli of different lengths count as not accepted (what numpy.asarray makes of them depends on its version)."
  },
  {
   "property": "C97",
   "status": "proved",
   "theorems": [
    "C97_accepted",
    "C97_total_only"
   ],
   "note": "Equivalence for announced energy numbers >= 0; a negative NEDOS, which Python's negative indices can accept, is outside the statement. Ragged tables, which numpy rejects with a version-dependent exception, count as refused. C64_single_ion_refuted shows that the single-ion exception is real."
  },
  {
   "property": "C98",
   "status": "proved",
   "theorems": [
    "C98_accepted"
   ],
   "note": "For files whose k-point part has no line break other than the newline (through a path, universal newlines guarantee it for carriage returns); C51 and the CRLF finding cover the rest. 'At most' the announced number of paragraphs: C65_missing_refuted shows that missing ones are accepted."
  },
  {
   "property": "C99",
   "status": "proved",
   "theorems": [
    "C99_accepted"
   ],
   "note": "Over any arithmetic (doubles with any volume function, exact rationals). Texts with white space that only Python or only C knows, or with a parenthesis, count as refused in the model (OutOfModel), as do grid lines that are not three non-negative integers (numpy's -1 dimension). np.fromstring's silent stop at junk is the documented behaviour of the numpy version in use."
  },
  {
   "property": "C100",
   "status": "proved",
   "theorems": [
    "C100_accepted",
    "C100_taken"
   ],
   "note": "For headers made of fields in the sense of the specification (`fields`, as in C53): a key set off by a blank, a value on the same line. C67_no_header gives the refusal of texts without a header."
  }
 ]
}