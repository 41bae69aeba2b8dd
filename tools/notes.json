{
 "C01": [
  "proved",
  "Round trip proved for string and file channels for every accepted text whose values print faithfully; the two excluded kinds of value (list containing a logical, overflowed float) are shown to be genuine exceptions by C01_unconditional_refuted. Tags containing the three Latin-1 characters whose upper case leaves Latin-1 are outside the character model."
 ],
 "C02": [
  "proved",
  ""
 ],
 "C05": [
  "partial",
  "False as stated: get/delete do not normalise the tag (C05_any_spelling_refuted). Proved for canonical spellings, and modify's canonicalisation proved for all spellings."
 ],
 "C06": [
  "partial",
  "False: the second component is the value, not the comment (incar.py:367). Proved that the first component is right and the second is always the value."
 ],
 "C08": [
  "proved",
  ""
 ],
 "C11": [
  "partial",
  "False as stated: 'inf'/'nan' tokens raise ValueError and an empty tag raises IndexError (C11_no_crash_refuted); C11_other_exceptions proves these are the only two escapes."
 ],
 "C12": [
  "partial",
  "Exact truth table proved for Incar, Kpoints and Poscar; the property itself is refuted: dict+path (and others) are accepted."
 ],
 "C13": [
  "partial",
  "Constructor part proved exactly; refuted after modify(), which never re-validates."
 ],
 "C14": [
  "partial",
  "Grouping proved; the trailing ';' half is refuted for strings (exit 102)."
 ],
 "C18": [
  "partial",
  "Mesh and reciprocal-vector round trips are proved in full; C18_mixed_refuted shows that a Gamma mesh carrying generating vectors validates but is written in a form that cannot be read."
 ],
 "C20": [
  "partial",
  "Proved for every mode except line mode with more than two points, where C20_line_mode_refuted proves the string channel always differs (extra empty points)."
 ],
 "C23": [
  "partial",
  "Proved on reading and for replacing the point list with the same number; delete_point does not update num_kpoints (C23_delete_refuted)."
 ],
 "C24": [
  "partial",
  "Rejection of unknown keys proved; the exact-key-set half is refuted."
 ],
 "C26": [
  "partial",
  "Exact behaviour of the shift line proved (C26_shifts_exact); the property as stated refuted."
 ],
 "C40": [
  "partial",
  "Exact multiset of returned lines proved; duplicates and string identifiers refute the plain statement."
 ],
 "C59": [
  "partial",
  "Entry preservation and the possible validation outcomes proved for all histories; that the object stays valid is refuted."
 ],
 "C60": [
  "partial",
  "False for file paths: the file is opened for writing before validation (refuted for every invalid Kpoints object); proved for handlers."
 ],
 "C27": [
  "partial",
  "Proved for every file whose counts before the last positive one are positive (trailing zeros allowed), as the list of species and per site; C27_zero_count_refuted proves that a zero count followed by a positive one always shifts the species."
 ],
 "C28": [
  "proved",
  "Direct coordinates unchanged and the lattice scaled in binary64 and in exact arithmetic; the defining equation d*L = scaled cartesian input is proved over exact rationals (numpy's inverse and dot are parameters in binary64)."
 ],
 "C29": [
  "proved",
  "Both number systems; header, counts, order of the groups (C29_ties: stable by first appearance), stability within a species and permutation."
 ],
 "C30": [
  "proved",
  "Both number systems."
 ],
 "C31": [
  "proved",
  "Direct output: binary64 (every number is the nearest to the printed decimal) and exact rationals (half a unit). Cartesian output: exact rationals, for lattices still non-singular at the printed precision."
 ],
 "C32": [
  "partial",
  "The label of the velocities is ignored: C32_velocities_partial proves what is stored in terms of the label of the positions, C32_label_ignored_refuted that no file with differing labels is read as intended."
 ],
 "C33": [
  "partial",
  "False: sites given as dictionaries are kept as dictionaries and can never be written (proved for every such dictionary). Site objects are converted correctly (C33_site_objects_partial)."
 ],
 "C34": [
  "partial",
  "C34_exit_exact characterises exit 301 for every file; proved for single blanks; any leading or double blank refutes it."
 ],
 "C35": [
  "proved",
  ""
 ],
 "C36": [
  "proved",
  "For the same conserve_order setting and species without '#'."
 ],
 "C41": [
  "proved",
  "For every regular expression engine and configuration."
 ],
 "C42": [
  "proved",
  ""
 ],
 "C43": [
  "proved",
  ""
 ],
 "C44": [
  "proved",
  "Entries of other kinds than error/warning are silently ignored, which the statement makes visible."
 ],
 "C45": [
  "partial",
  "has_entries proved in full; the documented count of unique streams holds without history and is proved wrong with history whenever a trigger is found twice."
 ],
 "C61": [
  "proved",
  "With the engine for plain patterns, which covers every pattern of stream.yml."
 ],
 "C49": [
  "partial",
  "Elastic (symmetrized, total), symmetry, magnetization and full-cell tables are proved; the documented key of the non-symmetrized moduli is refuted: the code stores them under 'non_symmetrized' and the documented key stays None (outcar.py:46, 176). Rows of different lengths (numpy object arrays) are outside the model."
 ],
 "C46": [
  "proved",
  "Electronic/NELM flags, ionic table, and the crash-point corollary."
 ],
 "C50": [
  "partial",
  "Proved for every file with one component per quantity (documented), and the exact attribution for every layout (overlapping); with two or four components the attribution is refuted for every row of distinct numbers, by C50_polarised_refuted and C50_columns_refuted. One orbital name of the 37-column layout is refuted."
 ],
 "C64": [
  "partial",
  "Proved for the total table and for two ions or more; a file with one ion cut inside its projected table is accepted (refuted)."
 ],
 "C51": [
  "proved",
  "For texts whose only line-ending character is the newline (str.splitlines also splits at others; the hypothesis newlines_only says so)."
 ],
 "C65": [
  "partial",
  "Too many k-points and the exit codes are proved; the first part is refuted for every file: each missing k-point is silently reported as zeros (C65_missing_refuted)."
 ],
 "C52": [
  "partial",
  "Layout, acceptance, uniqueness and exact volume are proved for every file; 'divided by the cell volume' is refuted for left-handed cells (C52_left_handed_refuted): the code divides by the signed triple product. Binary64 rounding of numpy's dot and cross is a parameter."
 ],
 "C66": [
  "partial",
  "Wrong counts in a data set that is used, the missing empty line and the exit codes are proved; refuted: three data sets (a non-collinear file cut inside the third) are accepted as non-magnetic, and text after a complete data set is ignored."
 ],
 "C53": [
  "proved",
  "All texts; the conversions of the numbers are those of Python's float/int (PyNum)."
 ],
 "C67": [
  "partial",
  "Errors and exit codes are proved. Refuted of the code: exponents with a plus sign are refused (C67_plus_refuted), Fortran D exponents are dropped (C67_fortran_d_refuted), an empty text value takes over the next line (C67_empty_value_refuted), a field right after a semicolon is lost (C67_semicolon_refuted)."
 ],
 "C54": [
  "proved",
  "All documents of the stated form. Two kinds of run are excluded from 'last'/'all' here and are the subject of C68. lxml is not modelled: a document is its tree of elements."
 ],
 "C56": [
  "proved",
  "All documents that are read and whose rows are numbers. lxml is not modelled: a document is its tree of elements."
 ],
 "C57": [
  "proved",
  "Proved for the regular parser; all statuses, types and both nosc settings. lxml is not modelled: a document is its tree of elements."
 ],
 "C58": [
  "proved",
  "All contents; the two lxml parsers are arbitrary functions."
 ],
 "C68": [
  "partial",
  "False as stated. C68_vasprun_one_atom_two_steps_refuted: in every one-atom run with two steps 'last' gives the positions and forces of the first step. C68_vasprun_single_step_twice_refuted: with one step 'all' has two entries. For all other runs it is C54."
 ],
 "C69": [
  "partial",
  "Exit 509 is proved for scalars and columns; refuted for tables (C69_vasprun_overflow_table_refuted, C69_vasprun_overflow_document_refuted): rows become zeros or copies of one number without any message."
 ],
 "C70": [
  "proved",
  "All texts."
 ],
 "C55": [
  "proved",
  "For documents in the grammar is_run of VasprunDoc.v (interpolated bands, several dielectric functions and steps without stress are outside it, the parsers differ there). C55_vasprun_parsers_agree: all data but the ionic steps and the dielectric function; C55_vasprun_dielectric_agree: the dielectric function; C55_vasprun_event_steps: the steps after the event parser; C55_vasprun_steps_agree: equality of the accessors with the exact exceptions (see C68, C71)."
 ],
 "C71": [
  "partial",
  "False as stated. C71_vasprun_epsilon_refuted (every run: TypeError or KeyError after the event parser), C71_vasprun_single_step_refuted (every run of one step), C71_vasprun_one_atom_refuted, C71_vasprun_dos_mesh_refuted, C71_vasprun_eigenvalues_twice_refuted. What does agree is C55."
 ],
 "C72": [
  "partial",
  "C72_vasprun_event_pieces: true when the texts of the fifteen elements used at their start event have been read; refuted otherwise: a parameter is silently lost (C72_vasprun_late_parameter_refuted) or a TypeError is raised (C72_vasprun_late_energy_refuted)."
 ],
 "C39": [
  "proved",
  "In exact arithmetic, over every field with decidable equality (rationals, reals) and any value for pi: rounding is not modelled. C39_dir_to_cart and C39_cart_to_dir say what the functions compute, C39_round_trips that they are inverse, C39_reciprocal the products 2 pi delta_ij (and uniqueness), C39_reciprocal_twice the reciprocal of the reciprocal lattice and its volume, C39_singular the exception."
 ],
 "C73": [
  "partial",
  "Energies, densities per spin, partial densities and Fermi level are proved. Refuted: with two spins the part 'total' holds only energies and the Fermi energy, no density (C73_vasprun_dos_sum_refuted); partial densities with another number of columns than ten become zeros silently (C73_vasprun_dos_wide_refuted). lxml is not modelled: a document is its tree of elements."
 ],
 "C74": [
  "proved",
  "All documents that are read and whose rows are numbers. lxml is not modelled: a document is its tree of elements."
 ],
 "C75": [
  "partial",
  "Proved for the elements of the table; refuted for the names given since 2012 to elements 113 to 118 (the table has their provisional names): Nh, Fl, Mc, Lv, Ts, Og end with exit code 506 (C75_vasprun_new_names_refuted). lxml is not modelled: a document is its tree of elements."
 ],
 "C76": [
  "proved",
  "All documents that are read. lxml is not modelled: a document is its tree of elements."
 ],
 "C77": [
  "partial",
  "Proved for documents with one dielectric function; refuted for two (C77_vasprun_two_functions_refuted): the rows of both are concatenated. lxml is not modelled: a document is its tree of elements."
 ],
 "C78": [
  "partial",
  "Proved for Born charges in one step; refuted for two steps (C78_vasprun_born_twice_refuted): each 'tensor' has six rows, those of two ions. lxml is not modelled: a document is its tree of elements."
 ],
 "C79": [
  "partial",
  "get_lattice proved for all runs but one; C79_vasprun_lattice_mixed_refuted: one atom and two steps gives the cell of the second step with the positions of the first. get_dict determines everything but the version (C79_vasprun_dict, C79_vasprun_dict_version_refuted). lxml is not modelled: a document is its tree of elements."
 ],
 "C80": [
  "partial",
  "C80_vasprun_regular_exits: every code of the regular parser has its reason in the document. C80_vasprun_event_exits, C80_vasprun_init_exits: the possible codes for all events and arguments. C80_vasprun_event_reasons: for every sequence of events, well formed or not, the event at which the event parser exits, and what the events before it lack (specification: setting, inside, mesh_read, collecting; 505 only says that bands were to be stored and NBANDS was known, not how many rows there were). Refuted: the regular parser never gives 501 (C80_vasprun_species_code_refuted); a missing list of atoms is exit code 503, the code for NBANDS. lxml is not modelled: a document is its tree of elements."
 ],
 "C81": [
  "partial",
  "Proved for INCAR, POSCAR and for KPOINTS but in line mode; C81_line_mode_refuted: after a KPOINTS in line mode the position is one past the end, the next write leaves a NUL character in between. get_string is proved to be what the write calls leave in a StringIO. C81_*_closed: a closed handler makes write raise ValueError and stays as it was."
 ],
 "C82": [
  "proved",
  "Exact: the contents a crash can leave are the old one and the beginnings of the new text (C82_*_crash, both directions). So writing is not atomic (C82_atomic_refuted, C82_kpoints_atomic_refuted). The file system below the buffers is not modelled: what was flushed is on disk."
 ],
 "C83": [
  "partial",
  "A write that returns has closed the file; C83_always_closed_refuted: one that raises (e.g. an object that does not validate) leaves it open, until Python collects it."
 ],
 "C84": [
  "partial",
  "C84_reads_the_rest for all parsers as functions of the text read. Vasprun rewinds (C84_vasprun_rewinds, C84_vasprun_twice). Refuted for the others: the second INCAR made from one handler is empty, the other classes raise (C84_second_object, C84_same_twice_refuted); after seek(0) the object is the same (C84_rewound_partial)."
 ],
 "C85": [
  "partial",
  "INCAR: C85_incar_cut, C85_incar_whole_lines: exactly the first tags, and perhaps one more whose value is what the beginning of its text denotes; so C85_incar_values_refuted. KPOINTS: C85_kpoints_cut (any text), C85_kpoints_crash_partial (any written object, all modes): same comment, mode, centering, count and generating vectors; explicit points all there and unchanged but for the last (C85_kpoints_points_partial also compares with the object), tetrahedra absent, none, or unchanged but for the last; divisions unchanged unless the shifts are lost; in line mode the first points. Refuted in full: C85_kpoints_values_refuted, C85_kpoints_tetra_refuted, C85_kpoints_mesh_refuted (divisions 4 4 12 read as 4 4 or 4 4 1), C85_kpoints_line_refuted (a shorter path). POSCAR: C85_poscar_cut (any text), C85_poscar_crash_partial: same comment, unitcell and species; every site but the last has its position and flags; velocities and predictors are absent for all or right for all but the last (C85_poscar_values_refuted, C85_poscar_velocities_refuted)."
 ],
 "C25": [
  "partial",
  "False as stated for get: None for absent tags, AttributeError for every existing tag (C25_kpoints_get_refuted, C25_poscar_get_refuted)."
 ],
 "C86": [
  "partial",
  "Proved for what is shown (all files, both forms; the cartesian form in exact arithmetic). False as stated: an object made from the dictionary cannot be written (C86_poscar_dict_back_refuted), and a cartesian site put in by modify is multiplied by the lattice once more (C86_poscar_dict_cartesian_site_refuted)."
 ],
 "C87": [
  "partial",
  "Proved for what is shown. Giving the dictionary back works for meshes only (C87_kpoints_dict_back_partial); with points the object cannot be written (C87_kpoints_dict_back_refuted)."
 ],
 "C88": [
  "partial",
  "Proved for paths (all nine readers) and for INCAR and KPOINTS strings. False for POSCAR texts given as strings or handlers (predictors are dropped, C88_poscar_predictors_refuted) and for EIGENVAL handlers (C88_eigenval_handler_refuted)."
 ],
 "C89": [
  "proved",
  "The species line of POSCAR is split at single blanks by is_numbers, hence its hypothesis; C34_extra_blank_refuted shows it is needed."
 ],
 "C90": [
  "proved",
  "For EIGENVAL the header and all table rows; for KPOINTS all three modes; for POSCAR scaling, lattice, counts and coordinates."
 ],
 "C91": [
  "proved",
  "keeps_sizes is a hypothesis on the number system only; exact_keeps_sizes shows it for exact arithmetic."
 ],
 "C92": [
  "partial",
  "Proved as an equivalence for all files. The plain reading (every accepted file can be written) is false: C92_incomplete_refuted lists a bare Tetrahedra line, two divisions, one shift, a two-component vector, a two-coordinate path point, and any path with a blank line given as a string."
 ],
 "C93": [
  "proved",
  "For all texts, tags and decimals below 10^15 with exponent in [-250, 250], through the model of float() (correct rounding to binary64) and of repr (shortest digits that round back). C93_sixteen_digits_refuted shows that the digit bound cannot simply be dropped."
 ],
 "C94": [
  "proved",
  "POSCAR: site coordinates, for every binary64 arithmetic (whatever its matrix routines do); KPOINTS: coordinates and weights of an explicit list with a plain comment. Lattice vectors (written multiplied by the scaling) and the other KPOINTS modes are covered to within half a unit of the last digit by C17-C20, C31."
 ],
 "C95": [
  "partial",
  "POSCAR: C95_poscar_body (everything below the comment, conserve_order may be switched on after a default writing), C95_poscar_settles (the second text is a fixed point of reading and writing through any channel); KPOINTS: C95_kpoints_mesh, C95_kpoints_reciprocal (explicit lists and line mode: C17_explicit_stable, C19_line_stable). What is false is stated as C95_first_rewriting_refuted: a comment with '#' or outer blanks changes at the first rewriting. Missing: cartesian coordinates in binary64 (they go through numpy's dot and inv)."
 ],
 "C96": [
  "proved",
  "An equivalence for all texts (C96_outcar; C96_outcar_no_source when there is nothing to read). Rows of elastic moduli of different lengths count as not accepted (what numpy.asarray makes of them depends on its version)."
 ],
 "C97": [
  "proved",
  "Equivalence for announced energy numbers >= 0; a negative NEDOS, which Python's negative indices can accept, is outside the statement. Ragged tables, which numpy rejects with a version-dependent exception, count as refused. C64_single_ion_refuted shows that the single-ion exception is real."
 ],
 "C98": [
  "proved",
  "For files whose k-point part has no line break other than the newline (through a path, universal newlines guarantee it for carriage returns); C51 and the CRLF finding cover the rest. 'At most' the announced number of paragraphs: C65_missing_refuted shows that missing ones are accepted."
 ],
 "C99": [
  "proved",
  "Over any arithmetic (doubles with any volume function, exact rationals). Texts with white space that only Python or only C knows, or with a parenthesis, count as refused in the model (OutOfModel), as do grid lines that are not three non-negative integers (numpy's -1 dimension). np.fromstring's silent stop at junk is the documented behaviour of the numpy version in use."
 ],
 "C100": [
  "proved",
  "For headers made of fields in the sense of the specification (`fields`, as in C53): a key set off by a blank, a value on the same line. C67_no_header gives the refusal of texts without a header."
 ]
}