{"id": "C01", "title": "INCAR string round trip", "statement": "If Incar(incar_string=s) succeeds, then Incar(incar_string=X.get_string()) succeeds and yields the same tags and the same typed values, and printing again gives the same text; likewise for files. The only values exempt are multi-token values containing a Fortran logical (they come back as text) and floats that overflowed to infinity (they cannot be read back).", "quantifier": "all strings s accepted by the constructor, all tags, all numbers of lines and tokens", "why_tests_cant": "the parser has unbounded free-text input (tokenisation, number grammar, comments, ';' grouping, repeated tags); a test samples a few files", "anchors": ["parsevasp/incar.py: Incar._from_string, _from_list, get_string, _write, _convert_value_to_string", "incar.py: IncarItem._clean_entry", "utils.py: test_string_content"]}
{"id": "C02", "title": "INCAR comments survive writing and never change values", "statement": "Writing with comments=True and re-reading gives the same values as writing without, and every comment text is recovered stripped.", "quantifier": "all Incar objects obtained from accepted text", "why_tests_cant": "needs every comment string and every value", "anchors": ["parsevasp/incar.py: Incar._write, _from_list"]}
{"id": "C03", "title": "INCAR tags are always stored canonically", "statement": "After any construction and any sequence of modify/delete calls every key of get_dict() is a single lower-case, blank-free, non-empty word, and keys are unique.", "quantifier": "all constructor inputs and all operation histories", "why_tests_cant": "history property", "anchors": ["parsevasp/incar.py: Incar.modify, delete, get_dict, IncarItem._clean_entry"]}
{"id": "C04", "title": "INCAR last assignment wins", "statement": "If a tag is assigned several times (in any letter case) in a text, the value stored is that of the last assignment, and the position of other tags is unaffected.", "quantifier": "all lists of assignments", "why_tests_cant": "unbounded sequences", "anchors": ["parsevasp/incar.py: Incar._from_list"]}
{"id": "C05", "title": "INCAR modify/get/delete agree on the spelling of a tag", "statement": "modify(t, v) followed by get(t) returns v, and delete(t) followed by get(t) returns None, for every spelling t of a tag that modify accepts.", "quantifier": "all tags t, values and histories", "why_tests_cant": "needs all spellings (case, blanks)", "anchors": ["parsevasp/incar.py: Incar.modify, get, delete"]}
{"id": "C06", "title": "INCAR get(tag, comment=True) returns the comment", "statement": "get(tag, comment=True) returns the pair (value, comment) of the entry.", "quantifier": "all entries with a comment", "why_tests_cant": "all comments", "anchors": ["parsevasp/incar.py: Incar.get"]}
{"id": "C07", "title": "INCAR output layout", "statement": "get_string() has exactly one line 'TAG = value' per entry, tags upper-case, in strictly increasing order of the stored tag, independently of the insertion order.", "quantifier": "all entry dictionaries", "why_tests_cant": "all permutations of insertions", "anchors": ["parsevasp/incar.py: Incar._write, get_string"]}
{"id": "C08", "title": "INCAR comments and blank lines are inert", "statement": "Inserting anywhere blank lines or lines starting with '#', or replacing text after '#', never changes get_dict().", "quantifier": "all texts, all insertion positions", "why_tests_cant": "unbounded positions", "anchors": ["parsevasp/incar.py: Incar._from_list"]}
{"id": "C09", "title": "INCAR malformed entries are rejected with the documented exit code", "statement": "An entry with two or more '=' exits 101, an entry without '=' exits 102, a value whose tokens have different types exits 104, an unsupported Python type exits 105, a dict value with two '#' exits 103; nothing malformed is silently accepted.", "quantifier": "all lines", "why_tests_cant": "all placements of the defect", "anchors": ["parsevasp/incar.py: Incar._from_list, _from_dict, IncarItem._clean_entry"]}
{"id": "C10", "title": "INCAR token typing", "statement": "A single-token value is returned as int exactly when the token is an integer literal, as float exactly when it is another numeric literal, as bool when it contains a dotted Fortran logical, else unchanged as text.", "quantifier": "all tokens", "why_tests_cant": "infinite token language", "anchors": ["parsevasp/incar.py: IncarItem._clean_entry, _test_string_for_bool", "parsevasp/utils.py: test_string_content"]}
{"id": "C11", "title": "INCAR values never crash the parser", "statement": "Every value text is either accepted or rejected through a documented SystemExit code; no other exception escapes.", "quantifier": "all value texts", "why_tests_cant": "infinite token language", "anchors": ["parsevasp/incar.py: IncarItem._clean_entry", "parsevasp/utils.py: test_string_content"]}
{"id": "C12", "title": "Constructor accepts exactly one source", "statement": "Incar/Kpoints/Poscar exit with code 10 unless exactly one of string, dict, path, handler is supplied.", "quantifier": "all 16 combinations of supplied sources, all contents", "why_tests_cant": "all contents", "anchors": ["parsevasp/incar.py: Incar.__init__", "parsevasp/kpoints.py: Kpoints.__init__", "parsevasp/poscar.py: Poscar.__init__"]}
{"id": "C13", "title": "INCAR validated tags are official", "statement": "With validate_tags=True the constructor succeeds only if every key is in the official tag table, exits 100 otherwise; and this keeps holding after later edits.", "quantifier": "all inputs and histories", "why_tests_cant": "history property, 604-entry table", "anchors": ["parsevasp/incar.py: Incar.validate, modify", "parsevasp/incar.yml"]}
{"id": "C14", "title": "INCAR ';' grouping is equivalent to separate lines", "statement": "Grouping assignments with ';' on one line yields the same entries as writing them on separate lines; a trailing ';' is harmless.", "quantifier": "all assignment lists and groupings", "why_tests_cant": "unbounded groupings", "anchors": ["parsevasp/incar.py: Incar._from_list"]}
{"id": "C15", "title": "INCAR behaves like a finite map under edits", "statement": "For every operation history the value read at a canonical tag is the one most recently set and not since deleted, and operations on one tag never affect another.", "quantifier": "all operation sequences", "why_tests_cant": "history property", "anchors": ["parsevasp/incar.py: Incar.modify, delete, get, get_dict"]}
{"id": "C16", "title": "INCAR dictionary round trip", "statement": "Incar(incar_dict=X.get_dict()).get_dict() == X.get_dict() for every X obtained from text.", "quantifier": "all accepted texts", "why_tests_cant": "unbounded input", "anchors": ["parsevasp/incar.py: Incar._from_dict, get_dict"]}
{"id": "C17", "title": "KPOINTS explicit-mode round trip", "statement": "Writing an explicit k-point list and reading it back preserves comment, the number and order of points, tetrahedra, and each coordinate/weight to half a unit of the last written decimal.", "quantifier": "all point lists, weights, tetrahedra, precisions", "why_tests_cant": "all list sizes and numbers", "anchors": ["parsevasp/kpoints.py: Kpoints._write, _from_list"]}
{"id": "C18", "title": "KPOINTS automatic-mode round trip", "statement": "Writing Gamma/Monkhorst-Pack or Reciprocal (generating vector) meshes and reading them back preserves centering, divisions, generating vectors and shifts.", "quantifier": "all divisions, vectors, shifts", "why_tests_cant": "all numbers", "anchors": ["parsevasp/kpoints.py: Kpoints._write, _from_list"]}
{"id": "C19", "title": "KPOINTS line-mode file round trip", "statement": "A line-mode KPOINTS written to a file and read back from the file gives the same sequence of points.", "quantifier": "all numbers of points", "why_tests_cant": "all lengths and parities (blank separators, final newline truncation)", "anchors": ["parsevasp/kpoints.py: Kpoints._write, _from_list", "parsevasp/utils.py: remove_newline"]}
{"id": "C20", "title": "KPOINTS string round trip agrees with the file round trip", "statement": "Kpoints(kpoints_string=X.get_string()) gives the same data as writing to and reading from a file.", "quantifier": "all Kpoints objects", "why_tests_cant": "all modes and lengths", "anchors": ["parsevasp/kpoints.py: Kpoints._from_string, _from_list, get_string"]}
{"id": "C21", "title": "KPOINTS unsupported input is rejected with the documented code", "statement": "Cartesian points exit 200, tetrahedron lines without five entries exit 201, fully automatic input exits 202, expert mode exits 203, and nothing unsupported is silently parsed.", "quantifier": "all texts", "why_tests_cant": "all contents", "anchors": ["parsevasp/kpoints.py: Kpoints._from_list"]}
{"id": "C22", "title": "KPOINTS point edits", "statement": "modify('points', k, i) replaces exactly point i and leaves every other entry untouched; delete_point(i) removes exactly point i; an index past the end exits 211.", "quantifier": "all lists and indices", "why_tests_cant": "all indices", "anchors": ["parsevasp/kpoints.py: Kpoints.modify, delete_point, _check_point_number"]}
{"id": "C23", "title": "KPOINTS declared count matches the points", "statement": "After every history of edits the written count equals the number of written points, so the result can be read back.", "quantifier": "all histories", "why_tests_cant": "history property", "anchors": ["parsevasp/kpoints.py: Kpoints.delete_point, modify, _write"]}
{"id": "C24", "title": "KPOINTS modify accepts exactly the documented keys", "statement": "modify accepts a key if and only if it is one of the entry keys.", "quantifier": "all key strings", "why_tests_cant": "infinite key space", "anchors": ["parsevasp/kpoints.py: Kpoints._check_allowed_entries"]}
{"id": "C25", "title": "KPOINTS/POSCAR get(tag) returns the stored value", "statement": "get(tag) returns the entry stored under an existing tag and None otherwise.", "quantifier": "all tags and objects", "why_tests_cant": "all values", "anchors": ["parsevasp/kpoints.py: Kpoints.get", "parsevasp/poscar.py: Poscar.get"]}
{"id": "C26", "title": "KPOINTS shifts given in the file are honoured", "statement": "A shift line after the divisions is always read.", "quantifier": "all texts", "why_tests_cant": "trailing content", "anchors": ["parsevasp/kpoints.py: Kpoints._from_list"]}
{"id": "C27", "title": "POSCAR every site gets its own species", "statement": "When reading, the site with index i gets the species whose count interval contains i.", "quantifier": "all species/count lists", "why_tests_cant": "all counts incl. zero", "anchors": ["parsevasp/poscar.py: Poscar._from_list"]}
{"id": "C28", "title": "POSCAR coordinates are converted correctly", "statement": "Reading a cartesian POSCAR stores direct coordinates d with d*L equal to the scaled cartesian input, and a direct POSCAR stores the input unchanged; L is the scaled lattice.", "quantifier": "all non-singular lattices, scalings and positions", "why_tests_cant": "real-number identity", "anchors": ["parsevasp/poscar.py: Poscar._from_list, _to_direct, _to_cart", "parsevasp/utils.py: dir_to_cart, cart_to_dir"]}
{"id": "C29", "title": "POSCAR grouping by species is a lossless stable rearrangement", "statement": "Writing (default) emits each species once, with count equal to its number of sites, sites of one species in their original order, and in total a permutation of the sites.", "quantifier": "all site lists", "why_tests_cant": "all arrangements", "anchors": ["parsevasp/poscar.py: Poscar._sort_and_group_sites, _write"]}
{"id": "C30", "title": "POSCAR conserve_order writes sites in the original order", "statement": "With conserve_order the sites are written in the stored order and the species/count header is its run-length encoding, so reading it back returns the same sequence of species.", "quantifier": "all site lists", "why_tests_cant": "all arrangements", "anchors": ["parsevasp/poscar.py: Poscar._get_key, _write"]}
{"id": "C31", "title": "POSCAR round trip", "statement": "Writing (direct or cartesian) and reading back preserves lattice, species, order, selective flags, positions, velocities and predictors to half a unit of the last written decimal.", "quantifier": "all structures", "why_tests_cant": "all numbers", "anchors": ["parsevasp/poscar.py: Poscar._write, _from_list"]}
{"id": "C32", "title": "POSCAR velocities use their own coordinate label", "statement": "Velocities are interpreted according to their own 'Direct'/'Cartesian' line whatever the label of the positions.", "quantifier": "all structures", "why_tests_cant": "label combinations", "anchors": ["parsevasp/poscar.py: Poscar._from_list"]}
{"id": "C33", "title": "POSCAR dict sites are converted", "statement": "Sites given as dictionaries are usable after construction (they can be written).", "quantifier": "all dicts", "why_tests_cant": "all contents", "anchors": ["parsevasp/poscar.py: Poscar._from_dict"]}
{"id": "C34", "title": "POSCAR VASP 4 files are detected regardless of blanks", "statement": "A file without a species line is always rejected, whatever blanks surround the counts.", "quantifier": "all blank layouts", "why_tests_cant": "infinite layouts", "anchors": ["parsevasp/poscar.py: Poscar._from_list", "parsevasp/utils.py: is_numbers"]}
{"id": "C35", "title": "POSCAR site edits", "statement": "modify('sites', s, i) replaces exactly site i; delete_site(i) removes exactly site i.", "quantifier": "all indices", "why_tests_cant": "all indices", "anchors": ["parsevasp/poscar.py: Poscar.modify, delete_site"]}
{"id": "C36", "title": "POSCAR compound comment is stable", "statement": "Writing with the automatic 'Compound:' comment repeatedly never stacks prefixes.", "quantifier": "all comments and structures", "why_tests_cant": "idempotence over all strings", "anchors": ["parsevasp/poscar.py: Poscar._write"]}
{"id": "C37", "title": "write needs exactly one destination", "statement": "write exits with code 10 unless exactly one of file_path and file_handler is given.", "quantifier": "all keyword sets", "why_tests_cant": "all keyword sets", "anchors": ["parsevasp/base.py: BaseParser.write"]}
{"id": "C38", "title": "Fixed-format numbers never merge and are accurate", "statement": "Every formatted number re-reads as one token whose value differs from the written one by at most half a unit in the last decimal, whatever its magnitude, sign, width and precision.", "quantifier": "all numbers, widths, precisions", "why_tests_cant": "all magnitudes (overflowing the field)", "anchors": ["parsevasp/kpoints.py: Kpoints._write", "parsevasp/poscar.py: Poscar._write"]}
{"id": "C39", "title": "Lattice conversions are inverse", "statement": "cart_to_dir(dir_to_cart(v, L), L) = v and vice versa for every non-singular lattice; reciprocal lattice rows r_i satisfy r_i . l_j = 2 pi delta_ij.", "quantifier": "all non-singular lattices and vectors", "why_tests_cant": "real-number identity", "anchors": ["parsevasp/utils.py: dir_to_cart, cart_to_dir, lat_to_reclat"]}
{"id": "C40", "title": "read_from_file(contains=...) returns the matching lines", "statement": "read_from_file with contains returns exactly the lines containing an identifier, in file order.", "quantifier": "all files and identifier lists", "why_tests_cant": "all files", "anchors": ["parsevasp/utils.py: read_from_file, is_sequence"]}
{"id": "C41", "title": "Stream without history reports each trigger at most once", "statement": "With history off, every configured trigger appears in entries at most once, a non-inverse one appears iff some line matches it, and the entries come in the order in which they are first found.", "quantifier": "all streams and configurations", "why_tests_cant": "all streams", "anchors": ["parsevasp/stream.py: Stream._parse, VaspStream"]}
{"id": "C42", "title": "Stream with history reports every occurrence in order", "statement": "With history on, entries is exactly the list of (line, trigger) matches in line order.", "quantifier": "all streams", "why_tests_cant": "all streams", "anchors": ["parsevasp/stream.py"]}
{"id": "C43", "title": "Stream inverse triggers fire exactly when absent", "statement": "An inverse trigger is reported iff no line of the stream matches it.", "quantifier": "all streams", "why_tests_cant": "all streams", "anchors": ["parsevasp/stream.py"]}
{"id": "C44", "title": "Stream configuration overrides are exact", "statement": "A user configuration replaces exactly the named entries and adds new ones; all other defaults are unchanged.", "quantifier": "all configurations", "why_tests_cant": "all configurations", "anchors": ["parsevasp/stream.py"]}
{"id": "C45", "title": "Stream has_entries / number_of_entries agree with the stream", "statement": "has_entries is False exactly when every configured trigger is silent (a normal one found in no line, an inverse one found in some line), and number_of_entries is the number of unique streams detected, as documented.", "quantifier": "all streams", "why_tests_cant": "all streams", "anchors": ["parsevasp/stream.py"]}
{"id": "C46", "title": "OUTCAR run status decision table", "statement": "For every OUTCAR the reader accepts: finished holds iff a line that is not an iteration marker contains the closing banner; last_iteration_index is the last marker's; electronic_converged iff the run finished and the last electronic index is below NELM; ionic_converged is False when unfinished, None when IBRION (default -1) is not positive, True when the last ionic index is below NSW, None when NSW is at most 1, False otherwise; contains_nelm_breach iff some ionic step has at least NELM markers; consistent_nelm_breach iff all have (finished) or all but the last have and the last ionic index exceeds 1 (unfinished). An unfinished run is never reported converged.", "quantifier": "all files (all sequences of lines), including every truncation of a run", "why_tests_cant": "any interleaving of markers, parameters and banners, any crash point", "anchors": ["parsevasp/outcar.py: Outcar._from_list", "parsevasp/outcar.py: Outcar.get_run_status"]}
{"id": "C47", "title": "OUTCAR parameters: the last occurrence wins", "statement": "NSW, NELM and NBANDS reported (and IBRION used) are those of the last line, not an iteration marker, that gives them in the documented form; None when no line does; what a line gives is unambiguous.", "quantifier": "all files", "why_tests_cant": "all files", "anchors": ["parsevasp/outcar.py: Outcar._from_list", "parsevasp/utils.py: match_integer_param"]}
{"id": "C48", "title": "OUTCAR run statistics", "statement": "run_stats has, for each name, the value of the last line of the closing 50 lines that gives it ('name (sec): value', '(kb)' and '...: value kBytes' lines), None for an empty value, and no other entry.", "quantifier": "all files", "why_tests_cant": "all files", "anchors": ["parsevasp/outcar.py: Outcar._parse_timings_memory"]}
{"id": "C49", "title": "OUTCAR elastic moduli, symmetry and magnetization tables", "statement": "The symmetrized and total elastic moduli are the six rows under the last such header; the symmetry lists have one entry per corresponding line, in order, split by the section in force; site moments are those of the last row of each site, totals those of the last table; full_cell those of the last line. The non-symmetrized moduli should be under the documented key 'non-symmetrized' (they are not).", "quantifier": "all files", "why_tests_cant": "all files", "anchors": ["parsevasp/outcar.py: Outcar._from_list", "parsevasp/outcar.py: Outcar.get_elastic_moduli"]}
{"id": "C50", "title": "DOSCAR columns are attributed to the right quantity", "statement": "In every accepted DOSCAR the rows of the total table are the n_dos lines after the header and those of the projected table of ion k are the n_dos lines after the k-th repeated header; each row gives the energy and then, for total/integrated or for each orbital in VASP's order, the columns of that quantity (one, two or four of them).", "quantifier": "all files, all numbers of spin components, all orbital layouts", "why_tests_cant": "all files and layouts", "anchors": ["parsevasp/doscar.py: Doscar._from_list", "parsevasp/doscar.py: DTYPES_DOS, DTYPES_PDOS_COLLINEAR, DTYPES_PDOS_NONCOLLINEAR"]}
{"id": "C51", "title": "EIGENVAL layout", "statement": "For every EIGENVAL that is accepted: the k-th paragraph after the six header lines is the k-th k-point; its first line gives kpoints[k] (coordinates and weight); eigenvalues[spin][k][band] is the spin-th number after the band number on the (last) line of that paragraph naming the band; the arrays have the announced shape; the metadata (ions, atoms, spins, k-points, bands, name, coordinate flag, lines 2 and 3) are those of the header. Every file laid out in VASP's format is accepted.", "quantifier": "all texts (lines separated by newlines), all sizes, path or handler", "why_tests_cant": "all sizes and all texts", "anchors": ["parsevasp/eigenval.py: Eigenval._from_list, Eigenval._from_file, Eigenval.get_eigenvalues, get_kpoints, get_metadata", "parsevasp/utils.py: line_to_type, read_from_file"]}
{"id": "C52", "title": "CHGCAR grid order", "statement": "For every CHGCAR that is accepted: the header is the text before the first empty line, the next line gives nx ny nz, and charge_density[z][y][x] is the number at position x + nx*(y + ny*z) of the first data set divided by the cell volume (scaling^3 times the triple product of the lattice vectors); with two data sets magnetization_density is the second likewise, with four it is {'x','y','z'} of the second to fourth, with one it is None. Every file in that format is accepted.", "quantifier": "all texts, all grid sizes, all cells, path or handler", "why_tests_cant": "all sizes and texts", "anchors": ["parsevasp/chgcar.py: Chgcar.__init__, _from_file, charge_density, magnetization_density", "parsevasp/utils.py: read_from_file"]}
{"id": "C53", "title": "POTCAR metadata", "statement": "For every text with a PSCTR header ('parameters from PSCTR are:' ... 'END of PSCTR-controll parameters') that is accepted: every documented parameter is available as an attribute, in upper or lower case, with the value of its last field 'KEY = value' (fields separated by semicolons or newlines) converted to its documented type; parameters without a field and names that are not documented raise AttributeError; symbol is the second word of TITEL (TITEL itself if it is one word), element its part before the first underscore; functional and functional_class are those of the LEXCH code in either case, None for unknown codes. Only the first header of the file counts. A header with a title whose documented fields can all be read is accepted.", "quantifier": "all texts, all field orders, all values, path or handler", "why_tests_cant": "all texts and values", "anchors": ["parsevasp/potcar.py: Potcar.__init__, _from_file, _generate_metadata, symbol, element, functional, functional_class, __getattr__", "parsevasp/utils.py: read_from_file"]}
{"id": "C54", "title": "vasprun: initial, last and all ionic steps", "statement": "Regular parsing with extract_all, of a document in which every calculation has one structure with a 3x3 basis, N positions, N forces and a 3x3 stress (N the number of atoms): for the cell, positions, forces and stress, 'initial' is the first calculation, 'all' has the calculations under the keys 1, 2, ... in document order, and 'last' is the last one, for every N and every number of steps except that one-atom runs with two steps are excluded from 'last' and 'all', and one-step runs from 'all' (see C68). Without extract_all, 'initial' and 'last' are the structures initialpos and finalpos, and the forces and stresses of the first and last calculation. Any other status exits with 507 once there are data; without data the answer is None.", "quantifier": "all documents, all numbers of atoms and steps, both k_before_band settings", "why_tests_cant": "all numbers of steps and atoms", "anchors": ["parsevasp/vasprun.py: Xml._fetch_upfsw, get_unitcell, get_positions, get_forces, get_stress, _check_calc_status"]}
{"id": "C55", "title": "vasprun: regular and event parsing agree on runs of VASP", "statement": "For every document of a run of VASP (generator, k-points, parameters and atoms with any other elements between, then one calculation per ionic step whose children come in any order: any number of electronic steps, a structure, forces, stress and energies, and in any of the steps, each at most once in the document, eigenvalues, density of states, projectors, a dielectric function, Born charges, force constants and band velocities with their k-points): if the regular parser reads it then so does the event parser, and version, parameters, species, k-points, eigenvalues, occupancies, band velocities and their k-points, density of states, energies, projectors, force constants, dynamical matrix, Born charges and the energies, imaginary and real part of the dielectric function are the same; the event parser shows the first ionic step as 'initial', the last as 'last' and all of them as 'all', and so does the regular parser except that a single step is shown twice in 'all' and that 'last' and 'all' are wrong for two steps of one atom.", "quantifier": "all such documents, any number of atoms, steps, k-points, bands, both spin cases, any order of the children, any other elements between", "why_tests_cant": "all documents", "anchors": ["parsevasp/vasprun.py: Xml._parsew, _parsee, get_*"]}
{"id": "C56", "title": "vasprun: eigenvalue, occupancy, velocity and projector layout", "statement": "In every document that is read: eigenvalues[spin][band][k] and occupancies[spin][band][k] are the first and second number of the (k*NBANDS + band)-th row of that spin (with k_before_band the two indices are swapped), velocities the whole row of four, projectors[spin][ion][band][k] the nine numbers of the ((k*NBANDS + band)*NIONS + ion)-th row; the key is 'total' without rows for a second spin, else 'up' and 'down'; the shapes are NBANDS x NKPTS (x NIONS). Wrong counts exit with 505, missing ISPIN with 502, missing NBANDS with 503, missing k-points with 504 for projectors (a TypeError for eigenvalues).", "quantifier": "all documents, all numbers of bands, k-points, ions, one or two spins, both index orders", "why_tests_cant": "all sizes", "anchors": ["parsevasp/vasprun.py: Xml._extract_eigenvalues, _extract_eigenvelocities, _extract_projectors, _fetch_eigenvaluesw, _fetch_projectorsw"]}
{"id": "C57", "title": "vasprun: energies", "statement": "get_energies(status, etype, nosc) returns for each requested type the final energies of the selected ionic steps in order, the energies of their electronic steps one after the other (all of them, or the last of each step with nosc), and the number of electronic energies per ionic step. If one ionic step lacks an entry of one of the three types the answer is None. An unsupported type is a ValueError even without data; with data another status exits with 507 and an empty list of types is an UnboundLocalError.", "quantifier": "all documents, all numbers of ionic and electronic steps, all lists of types, all statuses", "why_tests_cant": "all runs", "anchors": ["parsevasp/vasprun.py: Xml._fetch_totensw, get_energies, _get_energies"]}
{"id": "C58", "title": "vasprun: truncation and method selection", "statement": "A document without the closing tag is flagged truncated; one of more than 1024 bytes whose last line contains the tag within the last 1024 bytes is not; one of at most 1024 bytes, or with 1024 bytes after the last tag, always is. event=True always uses the event parser; otherwise the tree parser is used below 500 MB or if truncated, with recovery exactly if truncated, else the event parser. The handler counts before the path; no source exits with 510; a missing file is an AttributeError, a large document through a text-mode handler a TypeError.", "quantifier": "all contents, sizes, sources and settings, for any behaviour of lxml", "why_tests_cant": "all files", "anchors": ["parsevasp/vasprun.py: Xml.__init__, _set_file_size, _set_xml_truncated, _parse, truncated"]}
{"id": "C59", "title": "KPOINTS edit histories", "statement": "Any sequence of successful modify() and delete_point() calls on a Kpoints object leaves an object that still has every entry the constructor gave it, and whose validation either succeeds or reports code 206 (a value of the wrong type) or the index error; no edit removes an entry.", "quantifier": "all edit histories of all objects", "why_tests_cant": "ranges over all histories", "anchors": ["parsevasp/kpoints.py: Kpoints.modify, Kpoints.delete_point, Kpoints._validate"]}
{"id": "C60", "title": "A refused write leaves the existing file unchanged", "statement": "If write(file_path) raises because the object does not validate, the file that was at file_path keeps its content.", "quantifier": "all invalid objects, all old contents", "why_tests_cant": "a crash-point property over all objects", "anchors": ["parsevasp/base.py: BaseParser.write", "parsevasp/kpoints.py: Kpoints._write", "parsevasp/utils.py: file_handler"]}
{"id": "C61", "title": "Stream default configuration", "statement": "With the shipped configuration every readable stream is scanned without exception; each of the shipped triggers is watched and is found in a line exactly when the line contains an instance of its pattern; 'nostart' is reported exactly when no line contains 'vasp' followed by another character.", "quantifier": "all stream texts, history on or off", "why_tests_cant": "the text of the stream is unbounded and arbitrary", "anchors": ["parsevasp/stream.py:Stream.__init__", "parsevasp/stream.py:Stream._from_list", "parsevasp/stream.yml"]}
{"id": "C62", "title": "OUTCAR exit codes", "statement": "Reading an OUTCAR exits with 10 only when neither a path nor a handler is given, with 14 only when the path cannot be opened, with 600 only when no line has an iteration marker, and with no other code; a file without an iteration marker is never accepted.", "quantifier": "all arguments and file contents", "why_tests_cant": "all file contents, including crashed runs", "anchors": ["parsevasp/outcar.py: Outcar.__init__", "parsevasp/outcar.py: Outcar._from_list"]}
{"id": "C63", "title": "DOSCAR metadata and presence of projections", "statement": "The metadata are the numbers and words of the header lines; the projected density of states is present exactly when the energy line of the header is repeated in the data.", "quantifier": "all accepted files", "why_tests_cant": "all file contents", "anchors": ["parsevasp/doscar.py: Doscar._from_list, get_metadata, get_pdos"]}
{"id": "C64", "title": "DOSCAR cut short", "statement": "A DOSCAR that ends before its last announced row is not accepted; no file content makes the reader exit with a code other than 10 (no source) or 14 (file cannot be opened).", "quantifier": "all arguments and file contents, every place a file can be cut", "why_tests_cant": "all crash points of the writing program", "anchors": ["parsevasp/doscar.py: Doscar.__init__, Doscar._from_list"]}
{"id": "C65", "title": "EIGENVAL cut short", "statement": "A file with fewer k-points than its header announces is not accepted with invented values; a file with more is refused; the only exit codes are 10 (no source) and 14 (file cannot be opened).", "quantifier": "all files, all crash points of the program that wrote them", "why_tests_cant": "all crash points", "anchors": ["parsevasp/eigenval.py: Eigenval.__init__, _from_list, _from_file"]}
{"id": "C66", "title": "CHGCAR incomplete files", "statement": "A CHGCAR with fewer or more numbers than grid points in a data set, or a number of data sets VASP does not write, is refused rather than read as something else; text that is not a number is not silently skipped; without an empty line an IndexError is raised; the only exit codes are 10 (no source) and 14 (file cannot be opened).", "quantifier": "all texts, all crash points of the program that wrote them", "why_tests_cant": "all crash points", "anchors": ["parsevasp/chgcar.py: Chgcar._from_file"]}
{"id": "C67", "title": "POTCAR malformed fields", "statement": "No documented field is silently dropped or misread: numbers in any notation VASP writes (plus signs in exponents, Fortran D exponents) are read in full, an empty value stays empty, a field after a semicolon is a field with or without a blank. A text without a PSCTR header raises AttributeError, a header without TITEL KeyError, no source ValueError; a field that cannot be read gives no object; the only exit code is 14 (file cannot be opened).", "quantifier": "all texts", "why_tests_cant": "all texts", "anchors": ["parsevasp/potcar.py: Potcar._generate_metadata"]}
{"id": "C68", "title": "vasprun: the last step is the last step for every run", "statement": "For every number of atoms and ionic steps 'last' is the last ionic step and 'all' has exactly one entry per ionic step.", "quantifier": "all documents", "why_tests_cant": "all numbers of atoms and steps", "anchors": ["parsevasp/vasprun.py: Xml._fetch_upfsw"]}
{"id": "C69", "title": "vasprun: overflowed numbers are never silently replaced", "statement": "A number that did not fit its field ('****') anywhere in the data that are read gives exit code 509 (overflow), never a wrong number.", "quantifier": "all documents", "why_tests_cant": "every place a number can stand, all texts", "anchors": ["parsevasp/vasprun.py: Xml._convert_f, _convert_i, _convert_array1D_f, _convert_array2D_f"]}
{"id": "C70", "title": "vasprun: version", "statement": "get_version returns the first X.Y.Z (three integers, two dots, with all digits of Z) in the text of the first version element of the generator, stripped; without one, or without the element, it is an AttributeError.", "quantifier": "all texts of the version element", "why_tests_cant": "all texts", "anchors": ["parsevasp/vasprun.py: Xml._fetch_versionw, get_version"]}
{"id": "C71", "title": "vasprun: regular and event parsing agree on every document", "statement": "For every document that both parsers read, every accessor gives the same answer after both.", "quantifier": "all documents", "why_tests_cant": "all documents", "anchors": ["parsevasp/vasprun.py: Xml._parsew, _parsee, get_*"]}
{"id": "C72", "title": "vasprun: event parsing does not depend on how the source is read", "statement": "The event parser gives the same answer however iterparse cuts the source in pieces, that is whichever elements get their start event before their text has been read.", "quantifier": "all documents, all ways to cut them", "why_tests_cant": "the pieces depend on the size of the document and its source", "anchors": ["parsevasp/vasprun.py: Xml._parsee"]}
{"id": "C73", "title": "vasprun: densities of states", "statement": "For every document that is read, get_dos gives the energies, the total and integrated density of each spin and the partial density [ion][energy][orbital] exactly as written, get_dos_specific those of the interpolated grid, and get_fermi_level the Fermi energy; the part called total holds the density of the whole system for spin-polarised runs too.", "quantifier": "all documents, numbers of ions, energies, spins", "why_tests_cant": "all sizes; a wrong reshape or axis shows only for some combinations of ions and energies", "anchors": ["parsevasp/vasprun.py: Xml._fetch_dosw, _extract_dos, get_dos, get_dos_specific, get_fermi_level"]}
{"id": "C74", "title": "vasprun: k-points and weights", "statement": "get_kpoints, get_kpointsw and the divisions are the rows of the document in order, whatever their number; get_kpoints_specific those of the interpolated bands, or of the velocities when there are any.", "quantifier": "all documents, numbers of k-points", "why_tests_cant": "all sizes", "anchors": ["parsevasp/vasprun.py: Xml._fetch_kpointsw, _fetch_kpointsww, _fetch_kpointdivw, get_kpoints, get_kpoints_specific"]}
{"id": "C75", "title": "vasprun: species are atomic numbers", "statement": "get_species gives, for every list of atoms, the atomic number of each in order, for every element of the periodic table; a name that is no element ends with exit code 506.", "quantifier": "all lists of atoms, all elements", "why_tests_cant": "all lists and all elements", "anchors": ["parsevasp/vasprun.py: Xml._fetch_speciesw, _convert_species", "parsevasp/constants.py: elements"]}
{"id": "C76", "title": "vasprun: parameters", "statement": "Every parameter that get_parameters returns is the value of the element at its place below parameters and of no other element (the same name in incar or in another separator does not count), and None if it is absent.", "quantifier": "all documents", "why_tests_cant": "all documents, in particular those where the name occurs in several places", "anchors": ["parsevasp/vasprun.py: Xml._fetch_symprecw ... _fetch_systemw, get_parameters"]}
{"id": "C77", "title": "vasprun: dielectric functions", "statement": "get_dielectrics gives the energies and the six components of the imaginary and real parts row by row, and the tensors epsilon and epsilon_ion; with two dielectric functions in a document they are kept apart.", "quantifier": "all documents, numbers of energies and functions", "why_tests_cant": "all sizes and numbers of functions", "anchors": ["parsevasp/vasprun.py: Xml._fetch_dielectricsw, get_dielectrics, get_epsilon"]}
{"id": "C78", "title": "vasprun: force constants, phonons, Born charges", "statement": "get_hessian and get_dynmat give the rows of the document (3N by 3N), and get_born one 3 by 3 tensor per ion, in the order of the ions, for every number of ions and steps.", "quantifier": "all documents, numbers of ions and steps", "why_tests_cant": "all sizes; mixing of ions shows only with more than one step", "anchors": ["parsevasp/vasprun.py: Xml._fetch_hessian, _fetch_dynmatw, _fetch_bornw, get_hessian, get_dynmat, get_born"]}
{"id": "C79", "title": "vasprun: get_lattice and get_dict are consistent", "statement": "The cell and positions of get_lattice belong to the same ionic step for every status; other statuses end with exit code 507. get_dict determines everything that was parsed.", "quantifier": "all documents, statuses, parsed objects", "why_tests_cant": "all numbers of steps and atoms; all pairs of objects", "anchors": ["parsevasp/vasprun.py: Xml.get_lattice, get_dict"]}
{"id": "C80", "title": "vasprun: exit codes name a defect of the document", "statement": "Whenever the constructor of Vasprun exits, the code names a defect that the document has: 502 no ISPIN, 503 no NBANDS, 501 no species, 504 no k-points, 505 a number of rows that is not bands times k-points (times ions), 506 an unknown element, 509 an overflow or not a number; 510 exactly when there is no source, 16 exactly when the path is empty; no other code.", "quantifier": "all documents, all sequences of events, all arguments", "why_tests_cant": "no test can show that no document leads to another code", "anchors": ["parsevasp/vasprun.py: Xml.__init__, _parsew, _parsee, _extract_*, _convert_*"]}
{"id": "C81", "title": "write to a handler appends the text of get_string, once", "statement": "write(file_handler=f) on an open handler at its end appends exactly the text of get_string() and leaves the handler open at the end, so that two objects written to one handler are found one after the other; a closed handler gives ValueError and is left as it was.", "quantifier": "all INCAR, KPOINTS and POSCAR objects, all handler contents, all sequences of write calls a method makes", "why_tests_cant": "it must hold for every object and every content of the handler; the methods write piece by piece and truncate", "anchors": ["parsevasp/base.py: write", "parsevasp/incar.py: _write, get_string", "parsevasp/kpoints.py: _write, get_string", "parsevasp/poscar.py: _write, get_string", "parsevasp/utils.py: remove_newline"]}
{"id": "C82", "title": "what a crash during write(file_path) leaves", "statement": "If the process dies during write(file_path=...), the file holds the old content, or a beginning of the new text (for KPOINTS in line mode also the text with one more newline), and every one of these can occur.", "quantifier": "all crash points, all schedules of the buffers being flushed, all objects", "why_tests_cant": "crash points and flushes cannot be enumerated by a test", "anchors": ["parsevasp/base.py: write", "parsevasp/incar.py: _write", "parsevasp/kpoints.py: _write", "parsevasp/poscar.py: _write"]}
{"id": "C83", "title": "files that are opened are closed", "statement": "write(file_path=...) that returns leaves the file closed with exactly the text of get_string(); a call that raises leaves no file open; open_close_file_handler opens at the start, empties a file opened for writing, closes a given handler and exits with 14 or 15 otherwise.", "quantifier": "all objects, also those whose writing fails at any point", "why_tests_cant": "every failing point of every object", "anchors": ["parsevasp/base.py: write", "parsevasp/utils.py: open_close_file_handler, read_from_file"]}
{"id": "C84", "title": "parsing from a handler", "statement": "A parser given a handler reads from its position to its end and leaves it open; parsing the same handler again gives the same object.", "quantifier": "all contents and positions, all classes", "why_tests_cant": "all contents and positions", "anchors": ["parsevasp/utils.py: read_from_file", "parsevasp/vasprun.py: _set_file_size, _set_xml_truncated", "parsevasp/incar.py, kpoints.py, poscar.py, doscar.py, eigenval.py, outcar.py, potcar.py, chgcar.py: __init__"]}
{"id": "C85", "title": "an interrupted file is refused or has the values written", "statement": "A file left by an interrupted write that parses gives an object whose values are those written: an INCAR has a first part of the tags with their values, a KPOINTS with explicit points has all the points, a POSCAR has the comment, the unitcell and all the sites with their positions, flags, velocities and predictors.", "quantifier": "all objects, all crash points, all channels", "why_tests_cant": "crash points cannot be enumerated", "anchors": ["parsevasp/base.py: write", "parsevasp/incar.py: _write, _from_list", "parsevasp/kpoints.py: _write, _from_list", "parsevasp/poscar.py: _write, _from_list"]}
{"id": "C86", "title": "POSCAR get_dict shows what the object holds", "statement": "get_dict() of a POSCAR object returns every key with its value and the sites, in order, as dictionaries of species (capital initial), position, selective flags, velocity, predictors and the direct flag; with direct=False the positions and velocities are multiplied by the lattice and flagged False, so that a file in cartesian coordinates gives back its numbers times the scaling. The dictionary can be given back to Poscar.", "quantifier": "all POSCAR files that are read, all channels, all number systems for the direct form, exact arithmetic for the cartesian form", "why_tests_cant": "all files and numbers", "anchors": ["parsevasp/poscar.py: Poscar.get_dict, Poscar.__init__, Site"]}
{"id": "C87", "title": "KPOINTS get_dict shows what the object holds", "statement": "get_dict() of a KPOINTS object returns every key, in order, with its value, the points as [point, weight, direct] lists (None when there are none). The dictionary can be given back to Kpoints.", "quantifier": "all KPOINTS files that are read, all channels and modes", "why_tests_cant": "all files", "anchors": ["parsevasp/kpoints.py: Kpoints.get_dict, Kpoints.__init__"]}
{"id": "C88", "title": "line endings do not matter", "statement": "A file whose lines end with LF, CRLF or CR, in any mixture, gives the same object, or the same refusal, as the file with LF, for INCAR, KPOINTS, POSCAR, DOSCAR, EIGENVAL, OUTCAR, CHGCAR, POTCAR and the standard stream; the same for texts given as strings or handlers.", "quantifier": "all texts, all assignments of endings to lines, all readers", "why_tests_cant": "all texts and mixtures", "anchors": ["parsevasp/base.py: open_close_file_handler", "parsevasp/utils.py: read_from_file", "parsevasp/poscar.py: _from_string, _from_list", "parsevasp/eigenval.py: _from_list"]}
{"id": "C89", "title": "blanks and tabs between columns do not matter", "statement": "Replacing the blanks and tabs before, between and after the words of the lines of a KPOINTS (after the comment), a DOSCAR (but the line with the name) or a POSCAR (given that its species line is not all numbers and that lines after the counts keep or keep not starting with a header letter) by other blanks and tabs gives the same object or the same refusal.", "quantifier": "all files, all runs of blanks and tabs, all channels, all number systems", "why_tests_cant": "all spacings", "anchors": ["parsevasp/kpoints.py: _from_list", "parsevasp/poscar.py: _from_list", "parsevasp/doscar.py: _from_list", "parsevasp/utils.py: line_to_type, is_numbers"]}
{"id": "C90", "title": "a spoiled number is refused", "statement": "If one number of a file that KPOINTS, POSCAR, DOSCAR or EIGENVAL accepts (a coordinate, weight, count, division, shift, scaling, lattice or table entry) is replaced by a word that is not a number, the reader refuses the file with ValueError: it never returns an object in which the number is missing, shifted or defaulted.", "quantifier": "all accepted files, all positions of the number that the format reads, all words that float() or int() refuse, all channels, all number systems", "why_tests_cant": "all files, positions and words", "anchors": ["parsevasp/utils.py: line_to_type", "parsevasp/kpoints.py: _from_list", "parsevasp/poscar.py: _from_list", "parsevasp/doscar.py: _from_list", "parsevasp/eigenval.py: _from_list"]}
{"id": "C91", "title": "POSCAR: what was read can be written; velocities and predictors for all sites or for none", "statement": "A Poscar read from any accepted file can be written, in every precision and in both orders, direct and cartesian; each of its sites has three components and velocities (and predictors) are there for all sites or for none. An object edited so that some sites have velocities (predictors) and others do not is refused with TypeError when written; it never gives a file with fewer velocity lines than sites.", "quantifier": "all accepted files, all channels, all objects with three-component sites, all precisions, all number systems whose dot and inverse keep the sizes", "why_tests_cant": "all files and objects", "anchors": ["parsevasp/poscar.py: Poscar._write, Poscar._from_list, Poscar.get_string"]}
{"id": "C92", "title": "KPOINTS: what was read can be written", "statement": "A Kpoints read from any accepted file can be written with every precision exactly when nothing the format needs is missing in it (the volume when there are tetrahedra, three divisions, three components of each vector, shift and path point); otherwise writing raises TypeError (explicit list) or IndexError (other modes) and never gives a shorter file.", "quantifier": "all accepted files, all channels, all precisions", "why_tests_cant": "all files", "anchors": ["parsevasp/kpoints.py: Kpoints._from_list, Kpoints._write, Kpoints.get_string"]}
{"id": "C93", "title": "INCAR: decimal numbers are kept digit for digit", "statement": "When an INCAR text is read and written again, every number of at most fifteen significant digits (and exponent within 250) appears in the output with exactly the same decimal value it had in the input, whatever notation it was written in (leading zeros, exponent, trailing zeros, sign); nothing like 0.1 becoming 0.10000000000000001 ever happens.", "quantifier": "all INCAR texts and files, all tags, all numbers of at most fifteen digits in any notation", "why_tests_cant": "there are about 10^15 mantissas times 500 exponents, and the conversion goes through binary64", "anchors": ["parsevasp/incar.py: IncarItem.clean_tag_value, Incar._write, Incar.get_string"]}
{"id": "C94", "title": "POSCAR and KPOINTS: decimal digits are kept up to the precision", "statement": "When a direct POSCAR is read and written back in direct coordinates in the same order, or an explicit KPOINTS list is read and written back, with p decimals, every coordinate (and k-point weight) that had at most p decimals and fewer than 2^52 units of the last one appears on its line with exactly the same decimal value and the same sign (also of zero), whatever notation it had.", "quantifier": "all files and channels, all sites or points, all numbers, every precision up to 300", "why_tests_cant": "2^52 numbers per precision, through binary64 and fixed-point formatting", "anchors": ["parsevasp/poscar.py: Poscar._from_list, Poscar._write", "parsevasp/kpoints.py: Kpoints._from_list, Kpoints._write"]}
{"id": "C95", "title": "POSCAR and KPOINTS: saving again changes nothing", "statement": "Writing what was read from a written file gives the same text: for a KPOINTS mesh (centering with divisions, or generating vectors) byte for byte, and for a POSCAR in direct coordinates everything below the comment line at once, and the whole file byte for byte from the second writing on; at every precision, whichever channel the text is read through. So repeated load and save never drifts.", "quantifier": "all structures and meshes with Python floats, all precisions, all channels, both orders of sites, any number of rewritings", "why_tests_cant": "stability must hold for every double at every precision and for every arrangement of sites", "anchors": ["parsevasp/poscar.py: Poscar._write, Poscar._from_list, Poscar.get_string", "parsevasp/kpoints.py: Kpoints._write, Kpoints._from_list"]}
{"id": "C96", "title": "OUTCAR: exactly which files are accepted", "statement": "An OUTCAR is read if and only if it has an Iteration marker, a line giving NELM and - when the run finished with a positive IBRION - a line giving NSW, and every line has what it announces: a value after NSW, NELM, IBRION or NBANDS= that is an integer; inside a symmetry section a line after the PRICEL and SETGRP headers and an integer as fifth word of the GETGRP line; six rows of numbers of one length under a header of elastic moduli; under a magnetization header a table that reaches a blank line or the totals before the file ends; numbers after 'number of electron'; a colon in each timing of the last fifty lines. Every other file raises: a file cut between these blocks is still read, one cut inside a block is not, and no unrelated line can make a good file fail.", "quantifier": "all texts, given by path or handler", "why_tests_cant": "the equivalence covers every text, including every point at which a killed run can leave the file", "anchors": ["parsevasp/outcar.py: Outcar.__init__, Outcar._from_list, Outcar._parse_timings_memory", "parsevasp/utils.py: match_integer_param"]}
{"id": "C97", "title": "DOSCAR: exactly which files are accepted", "statement": "A DOSCAR announcing n >= 0 energies is read if and only if its header lines have the documented items (four integers, one word on line 4, five numbers on line 6), n is at least one, every later line holds only numbers, the n rows of the total table all have three or all have five numbers and, when some later line repeats the numbers of line 6, the projected tables behind the first such line are there: one per ion, n + 1 lines apart, all rows in one of VASP's orbital layouts and all of n rows - except that the table of a single ion may end early with the file once it has begun. In particular a file cut inside the total table, or inside or between the projected tables of several ions, always raises, and a complete file with a total table only is always read.", "quantifier": "all texts, given by path or handler, all numbers of energies and ions, both values of the non-collinear flag", "why_tests_cant": "the equivalence covers every text, including every point at which a killed run can leave the file", "anchors": ["parsevasp/doscar.py: Doscar.__init__, Doscar._from_list", "parsevasp/utils.py: line_to_type"]}
{"id": "C98", "title": "EIGENVAL: exactly which files are accepted", "statement": "An EIGENVAL whose k-point part uses only newlines as line breaks is read if and only if its header lines have the documented items (four integers on line 1, numbers only on lines 2 and 3, one word on line 4, three integers on line 6, with non-negative numbers of spins, k-points and bands), the k-point part does not begin with two blank lines and does not end in a blank line (except one the file ends in the middle of, after a line that is not blank), it has at most the announced number of paragraphs, and every paragraph is one line of four numbers (or one for all four) followed by lines that each name a band in range and give one number per spin (or one for all). A file with one k-point too many, with a word that is no number, with a band out of range or with a final empty line always raises.", "quantifier": "all texts, given by path or handler, all numbers of spins, k-points and bands", "why_tests_cant": "the equivalence covers every text and every layout of blank lines", "anchors": ["parsevasp/eigenval.py: Eigenval.__init__, Eigenval._from_list", "parsevasp/utils.py: line_to_type, empty_line"]}
{"id": "C99", "title": "CHGCAR: exactly which files are accepted", "statement": "A CHGCAR is read if and only if it has an empty line, the header before it has a scaling factor on line 2 and lattice vectors (three numbers, or one for all three) on lines 3 to 5, the line after the empty one holds three non-negative integers and ends in a newline, and every data set that is looked at - all of two or of four, otherwise only the first - has as many leading numbers before its augmentation occupancies as the grid has points. Every other text raises, whatever its number system, comment, positions or augmentation data.", "quantifier": "all texts, given by path or handler, all grids and numbers of data sets, any arithmetic for the cell", "why_tests_cant": "the equivalence covers every text, including every point at which a killed run can leave the file", "anchors": ["parsevasp/chgcar.py: Chgcar.__init__, Chgcar._from_file"]}
{"id": "C100", "title": "POTCAR: exactly which headers are accepted", "statement": "A POTCAR whose first PSCTR header is made of KEY = value fields is read if and only if it has a TITEL field and every field of a documented parameter (also one that a later field overrides) can be converted: flags begin with an optional point and T or F, integers with an optional minus sign and digits, numbers with what Python reads as a number once sign, digits, point, digits, exponent letter, minus sign and digits are taken each as far as it is there, and every word of STEP is letters only or a number. Fields of other parameters never matter.", "quantifier": "all texts, given by path or handler, all fields and values", "why_tests_cant": "the equivalence covers every value of every parameter", "anchors": ["parsevasp/potcar.py: Potcar.__init__, Potcar._generate_metadata"]}
