# Formal model of FLAME in Rocq/Coq 8.16.1

Source: `/repo` (frib-high-level-controls/FLAME), read as text.  The theorems are
about the Gallina model; the link to the C++ is the citation (`file:lines`) carried
by every definition in a `*_Model.v` file.  `MANIFEST.json` lists the theorems of
each property; this file says what they rest on.

## Layout

`rocq/theories/`

* `*_Model.v`  – executable model, function by function, no proofs.
* `*_Spec.v`   – specification vocabulary, stated on its own.
* `*_Proofs.v` – lemmas.
* `*_Props.v`  – only the property theorems (closed by `exact`), below each one
  `Print Assumptions` and an `Example` that meets its hypotheses.
* `seeded/LOG.jsonl` – wrong programs tried against the theorems.

## Trusted base

1. The Coq 8.16.1 kernel (`coqc`; `vm_compute` is used in some proofs, no native
   compilation, no plugin beyond the standard distribution).
2. The axioms listed under *Assumptions per theorem* below, all from the Coq
   standard library.  The development declares none of its own.
3. That the definitions of the `*_Model.v` files say what the cited C++ lines do,
   under the simplifications named next.
4. That the statements in the `*_Props.v` and `*_Spec.v` files say what
   `properties.jsonl` says in English.

## Modelling decisions

* **Numbers.**  `double` is `SpecFloat.spec_float` (binary64) wherever NaN,
  infinities, equality, text conversion or casts matter: Config values, the scanner,
  expressions, repetition counts, flags.  It is a real number where the claim is about
  optics; rounding, overflow and NaN are then outside the model, and `num : double -> R`,
  which says what real number a setting stands for, is an arbitrary function.  Theorems that
  need a denominator not to vanish say so (`moving`, `proper_magnet`, …); the stripper,
  whose formulas can produce NaN from ordinary input, has the outcome `NotFinite` instead.
* **Errors.**  Exceptions are an explicit outcome, by class.  Undefined behaviour, failed
  assertions and memory faults are the outcome `Abort` (`BadIndex` for an access beyond
  the arrays of charge states), never a normal value.  `assert()` is on or off
  (`w_asserts`); the default build has it off (CMakeLists.txt:15-16).
* **Strings, maps.**  `std::string` is Coq `string` (bytes); `std::map<std::string,…>` is
  a sorted association list, so iteration order is the real one.
* **Config** is modelled twice: as reference-counted objects on a heap (Config_Model, where
  `shared_ptr::unique()` may answer true only if no other live handle exists), and as value
  trees (Config_Spec).  C01–C05 relate the two; everything else uses trees.
* **Machine** is generic in what elements do; the linear and moment simulations are instances.
* **Fuel.**  The scanner and parser use fuel; that it never runs out is proved
  (C16_lexer_terminates, C07_parse_means).

## Modelled and not modelled

| source | model | left out or simplified |
|---|---|---|
| config.h, config.cpp:11-124 | Config_Model | memory exhaustion |
| glps.l | Lexer_Model | include depth, line counting |
| glps.y, glps_parser.cpp, glps_ops.cpp, config.cpp:199-422 | Glps_Model | message texts, output of print(), Bison stack limit (see Stack_Model), libm functions and the file system (oracles) |
| base.h, base.cpp, modmachine.cpp (propagate, conf) | Machine_Model, Config_Model | logging, mutex (trace stream: Show_Model; leaks: Own_Model) |
| linear.h, linear.cpp, state/vector.h, state/matrix.h | Linear_Model | exact arithmetic |
| moment.h, moment.cpp, moment_sup.cpp, chg_stripper.* | Moment_Model | logging, tic/toc; exact arithmetic; CurveMap (curve files do not change) |
| moment_sup.cpp:22-36 (inverse) | Minv | order of elimination (the inverse is unique) |
| rf_cavity.h:157-314 | Moment_Model (advance of the cavity) | the field computations of rf_cavity.cpp are the oracles `w_cav_ref`, `w_cav_one`, `w_cav_growth`, `w_cav_ctor`, functions of the entry and their arguments only |
| moment_sup.cpp:395-417 (CurveMap), rf_cavity.cpp:805-829 (CavConfMap) | Keyed_Model | the parser is a parameter; a race is an overlap of accesses to the map, not memory order |
| src/base.cpp: info_mutex and the calls that take it, set_logger, ~LogRecord; FLAME_LOG | Thr_Model | memory order (calls are steps of one sequentially consistent memory); changes of log_detail while threads run; loggers that call the framework |
| examples/customsim.cpp: State1D, Element1DSource, Element1DGeneric, register1D, main | Tut_Model | getArray and clone; contraction to fused multiply-add |
| base.cpp:193-265, base.h:398-493 and the constructor again: the registry as pointers to builders, registeryCleanup, lives of machines | Reg_Model | threads; memory of machines and elements (C88) |
| base.cpp:69-72, 187-190, 267-276, base.h:46-48, 143-147, linear.cpp:54-57, 104-107, 184-188, linear.h:35-39, moment.cpp:50-65, 265-302, 582-591, 787-791, modstate.cpp:260-316, modmachine.cpp:50-57, cli.cpp:251-263, 556-577: printing | Show_Model | other stream flags, write failures, --timeit; boost's format of vectors and matrices is taken from boost |
| base.cpp:64-67, 82-166, base.h:201-207, 391, 414-422, modmachine.cpp:12-48, 114-193, cli.cpp:497-587: who deletes what | Own_Model | memory held inside elements, states and Configs; registeryCleanup; H5StateWriter; addresses are never given out again; observers do not touch the machine |
| python/flame/modconfig.cpp, pyflame.h:131-162, modmachine.cpp:20-33, 60-113, 195-219 | Py_Model | Python objects are None, numbers (with the double float() gives, if any), str as code points, bytes, arrays of doubles (dimensions and values), lists, tuples, dicts as item lists, file-like objects with what read() gives; other objects, subclasses that override methods, and exceptions raised by them are left out; Python 3; memory and reference counts; the path argument belongs to the world of the parser |
| config.cpp:424-573 GLPSPrint | Print_Model | operator<<(ostream, double) computed exactly as %.6g in the C locale, half to even; streams do not fail; the sign of a printed NaN |
| util.cpp, util.h:72-137 | Util_Model | text is in the C locale; extraction of a double from a stream as the C++ standard library does it (collect, then strtod); symbolic links and non-canonical paths; the mutex of the cache (fetches do not overlap, files may change meanwhile) |
| base.h:49-100, getArray() of base.cpp:37-54, linear.cpp:59-72, 109-120, moment.cpp:306-547 | Array_Model | memory is made of 8 byte cells in one block for each member or vector; the sizes of the uBLAS vectors and matrices are parameters, at least 56 and 392 bytes; a state without charge states is undefined behaviour |
| python/flame/modstate.cpp:62-263, 319-366 | Array_Model | the generic attributes, numpy itself (an array is a shape, strides, an address and memory; conversion to an array of doubles is done before), reference counts |
| h5writer.cpp:118-235 | Array_Model | HDF5 itself (a dataset is its extents and values; extend() is H5Dset_extent, as from version 1.8 on), errors from HDF5, the assertion on types |
| vaccel/flame.cpp:12-187, flamedev.cpp, flameset.cpp, flamemeasure.cpp, flameorbit.cpp, flameelem.cpp | Ioc_Model | EPICS (a record is processed with the fields it has at that time, the outcome is what is left in it; scanIoRequest is counted), the regular expression engine of boost (a backtracking matcher for the expressions in use), log output, debug levels, time stamps, Runcount, the shell commands but flamePrepare and the clean-up |
| python/flame/ioc.py:13-107, python/flame/data | Gen_Model | reading the lattice (C01 and following), reading and writing of files (what is written is kept as rows), log output, the copy of the lattice, st.cmd but for NELM; a mangler is any function of name and type; dbLoadTemplate and dbLoadRecords of EPICS are macro expansion with defaults, of a record only name, DTYP and INP or OUT are kept |
| base.cpp:278-317, base.h:497-543, modmain.cpp:17-110, cli.cpp:394-400 | Log_Model | how texts are put together, the mutex, handlers of the Python logger, texts that are not ASCII |
| python/flame/__init__.py:10-39 | Odict_Model | lists whose entries are no pairs of str and value (the extension module gives none) |
| glps.y:82-126 as compiled by bison (CMakeLists.txt:7-15) | Stack_Model | only the depth of the stack; the skeleton yacc.c and its default YYMAXDEPTH of 10000 are assumed; memory for 10000 states is taken to be available |
| glps.l:43-49, glps.y:7-12, glps_parser.cpp:47-57, 486-521, 524-557: line numbers | Where_Model | message texts; which states of the LALR tables read a token ahead is derived by hand from the grammar and bison's default reductions; an exhausted stack (C86) |
| linear.h:54-59, moment.h:46-53, moment.cpp:201-233, 658-726, 806-861 in doubles | Bits_Model | the cache (C33), bends, cavities, sextupoles and strippers (own advance()), backward propagation, x87 registers and fused operations |
| h5loader.cpp, h5loadertest.cpp, h5writer.cpp:37-252 (names of files and groups, setAttr) | Hdf_Model | HDF5 itself (files are trees of groups and datasets; opening with H5F_ACC_CREAT makes a file; handles of datasets stay valid after the file is closed or the group unlinked); data that are not numbers, soft links, files changed by others, states after an exception; the empty name and names that are directories are files that do not open |
| base.cpp:17-35, clone() and assign() of linear.cpp:40-52, 90-102, moment.cpp:235-263, modstate.cpp:48-60, 301-311 | Clone_Model | states side by side in one heap; addresses are not used again after delete; std::vector keeps its storage when resized |
| tools/cli.cpp | Cli_Model | how boost::program_options splits the command line, --verbose, --help, --version, what --timeit prints, layout of the output, warnings; boost::lexical_cast<double> is an oracle; the lattice file is given as its text |
| rf_cavity.cpp, rf_cavity.h:57-155 | Cavity_Model; Thin_Model (thin lens files, texts of data files) | log messages; NaN beyond GetCavBoost (the model ends with NotFinite); floating point; files do not change while the program runs |
Oracles of the moment model (`world`): what a double stands for, `lexical_cast<double>`,
curve files, what ublas' resize leaves in new storage (`junk0`, `junk1`), the default
particle with NaN fields, assertions on or off, and the cavity computations.  Theorems
quantify over all of them; where something must be assumed of them it is a
named hypothesis (`sane`, `cavities_keep_ions`, `cavities_affine`).

Further simplifications of the moment model: the members a sextupole or stripper
writes to its cache but never reads are not tracked, nor are the misalignment
matrices of elements other than cavities after use; the state after an exception is
unspecified (as in C++, where it is half updated); an electric dipole with negative
`Kx` computes a NaN, which is outside the exact model.

## Properties

Status and theorems; "how" is the proof idea or what is missing.

| id | status | theorems | how |
|---|---|---|---|
| C01 Config copies are independent for lookups | proved | `C01_lookups_see_private_copies`, `C01_sharing_unobservable` | Representation invariant on the heap. Refinement of the heap model to deep-copy value semantics for every lookup-only program and every legal answer of shared_ptr::unique(). |
| C02 Config copies are independent for iteration and printing | partial | `C02_iteration_isolation_partial`, `C02_iteration_isolation_refuted` | False in general: Config::flatten writes through the shared inner map without copy-on-write (witness). Proved for programs that flatten/push only unshared or single-scope Configs. |
| C03 Scoped lookup: inner values shadow outer ones, nothing else changes | proved | `C03_scoped_lookup`, `C03_new_scope_is_a_copy` | Case analysis on the branches of new_scope. Lookup law for every variable after each scope operation in every reachable state; new_scope is observationally a copy. |
| C04 Typed access never converts and never modifies | proved | `C04_typed_access` | In every reachable state. |
| C05 Typed swap exchanges the stored value with the argument | partial | `C05_typed_swap_refuted`, `C05_swap_any_partial` | False: swap<T> leaves a default value in its argument (last line commented out). The untyped swapAny law is proved. |
| C06 Lattice files are type safe | partial | `C06_type_safety_partial`, `C06_no_undefined_conversion_refuted`, `C06_abort_releases_properties_refuted` | Typing invariant over the parser context. No wrongly typed read, no index out of range, always ends: proved for every text. False in two ways shown by witnesses: NaN repetition count converted to unsigned, and the kv destructor frees memory from new on an abort. |
| C07 A lattice file with any error yields no Config | proved | `C07_parse_means`, `C07_lexical_error`, `C07_syntax_error`, `C07_statement_error` | Sticky error flag, induction over the actions. A Config is returned iff the text spells statements that all have a meaning under an independent semantics. For a parser without a limit on its stack; C86 says what the limit changes. |
| C08 Beamline expansion preserves source order | proved | `C08_expansion_order` | Induction on statements. Any nesting depth; flattening stated by an inductive relation on the source statements. |
| C09 Every element of the returned lattice was defined | proved | `C09_elements_are_defined`, `C09_undefined_member` | For every file. |
| C10 Duplicate definitions | proved | `C10_duplicate_definition`, `C10_preset_redefined`, `C10_first_property_wins` | For every file. |
| C11 Line selection | proved | `C11_use_selects`, `C11_last_line_otherwise`, `C11_no_line_is_error`, `C11_unknown_use_is_error`, `C11_empty_line_is_error` | For every file. |
| C12 Global variables are visible from every element | proved | `C12_globals_visible`, `C12_element_sees_top_level`, `C12_elements_hidden` | For every file, element and name. The name entry of the top level is hidden because every element has its own. |
| C13 setVar is equivalent to a leading assignment | proved | `C13_setvar_is_assignment` | At token level: the assignments are given as the tokens the scanner yields. Finite numbers only, other numbers have no spelling. |
| C14 Operator resolution is unambiguous | proved | `C14_at_most_one_candidate`, `C14_resolution`, `C14_binary_meaning`, `C14_unary_meaning` | For every name and argument list over the operator table of glps_ops.cpp. |
| C15 Line repetition count is checked | partial | `C15_repetition_checked_partial`, `C15_nan_count_refuted` | All non-NaN binary64 values in both argument orders; for NaN the conversion to unsigned is undefined behaviour. |
| C16 Lexer: longest match, blanks and comments do not matter | proved | `C16_lexer_terminates`, `C16_longest_match`, `C16_error_iff_not_tokenisable`, `C16_blanks_between_tokens`, `C16_boundary_after_every_lexeme` | Induction on the input; derivatives of the regular expressions. For every input string, against the regular expressions of glps.l; numeric value is the correctly rounded decimal. |
| C17 Expression grammar: precedence and associativity | proved | `C17_parses_exactly_the_grammar`, `C17_one_tree`, `C17_precedence`, `C17_minus_binds_tightest`, `C17_every_tree_can_be_written` | Soundness and completeness of the parser against an inductive grammar. The parser accepts exactly the stated grammar and assigns one tree. |
| C18 Printing then parsing reproduces the lattice | partial | `C18_number_text`, `C18_number_read`, `C18_round_trip_partial`, `C18_parsed_partial`, `C18_exact_partial`, `C18_digits_refuted`, `C18_infinity_refuted`, `C18_clash_refuted`, `C18_twins_refuted`, `C18_quote_refuted`, `C18_nested_refuted` | The lexemes of the printed text, character by character; the text spells statements whose meaning is the lattice rounded to six digits; six-digit decimals round trip through doubles. Proved for every lattice with writable names, finite numbers and plain strings, up to rounding to six digits (exactly if six digits suffice). False in general: six witnesses, three of them lattices that were themselves read from a text. |
| C19 Machine keeps beamline order | proved | `C19_beamline_order`, `C19_buildable` | Induction on the entries. For every registry and Config; construction succeeds exactly for the stated Configs. |
| C20 find() and range lookups agree with the beamline | partial | `C20_find_by_name_partial`, `C20_find_by_type`, `C20_all_elements_listed`, `C20_lookup_after_rename_refuted` | By type and listing: every history. By name: every history that keeps names; false after a reconfigure that changes the name (witness). |
| C21 propagate visits exactly the requested elements | partial | `C21_visits`, `C21_visits_forward`, `C21_visits_backward`, `C21_ends_after_the_visits`, `C21_most_negative_max_refuted`, `C21_python_large_max_refuted` | Induction on the count. Proved for all int bounds but INT_MIN, where abs() is undefined (witness); from Python larger bounds are truncated to int (witness). |
| C22 propagate composes | proved | `C22_composes`, `C22_throws` | Induction on the count. Every machine, state and split, arbitrary element behaviour apart from turning the state around. |
| C23 reconfigure is all or nothing and local | proved | `C23_throw_changes_nothing`, `C23_changes_one_element`, `C23_type_is_fixed` | Every machine, index, Config and failing constructor; assign() itself is assumed not to throw. |
| C24 A reconfigured machine behaves like a freshly built one | partial | `C24_reconfigured_like_new_partial`, `C24_linear_without_source`, `C24_linear_source_refuted`, `C33_one_direction_partial` | Every history, for element classes whose assign() replaces all that advance() depends on; instantiated for the Vector and TransferMatrix types, where it fails for the source (witness), and for MomentMatrix with every element kind, for histories of completed propagations in one direction. |
| C25 Type registry | proved | `C25_duplicates_rejected`, `C25_holds_what_was_registered`, `C25_order_irrelevant`, `C19_buildable` | Every registration history. |
| C26 Observers see exactly the selected elements | proved | `C26_observer_calls`, `C26_python_observe`, `C26_indices_are_slots`, `C26_python_observe_out_of_range` | Every machine, observer set and range. |
| C27 Vector and TransferMatrix simulations agree | proved | `C27_vector_is_matrix_applied`, `C27_through_a_source_refuted` | Induction on the lattice, matrix algebra. Every lattice, range and direction, exact arithmetic, sourceless ranges as stated; the restriction is necessary (witness). |
| C28 Linear optics matrices are symplectic | partial | `C28_linear_elements`, `C28_linear_line`, `C28_linear_determinants`, `C28_moment_elements`, `C28_moment_line`, `C28_emittances_stay`, `C28_electric_dipole_partial`, `C28_electric_dipole_refuted`, `C28_electric_dipole_phase_refuted` | Trigonometric identities; MomentMatrix: the matrix is that of a motion whose equations keep areas, so the area is constant along the course (derivative zero), composed with frames. Electric dipoles: matrix by matrix. Vector and TransferMatrix types: all elements and every line, all real parameters. MomentMatrix: markers, monitors, drifts, magnetic and electric quadrupoles and solenoids, correctors, sector bends focusing in their plane, with misalignment, every charge state (all three planes together for sector bends only when made for the particle), and every line of them. Electric dipoles without asym_fac keep transverse areas; refuted with asym_fac, and for areas with phases and energies. Sextupoles and bends that defocus in their plane not covered; cavities are in C55. |
| C29 Splitting an element changes nothing | partial | `C29_linear_elements`, `C29_cut_vector`, `C29_cut_matrix`, `C29_moment_halves`, `C29_moment_line`, `C29_field_parts`, `C29_field_line`, `C29_electric_dipole_partial`, `C29_electric_dipole_refuted` | Addition theorems; MomentMatrix: two courses one after the other are one course, and courses are unique. Elements with field curves: the stretches of the whole are those of the parts, in order. Electric dipoles: the same for the flow between the ends, seen in the frame of the misalignment and of the plane of bending; the refutation computes the matrices of a doubly charged ion. Vector and TransferMatrix types: matrices and whole lattices, exact arithmetic. MomentMatrix: drifts, magnetic and electric quadrupoles, solenoids and sector bends, cut anywhere, shifted and rolled but neither pitched nor yawed, alone and within a line. Electric dipoles without fields beyond the ends and with symmetric electrodes: position and phases for all, moments and matrices for charge states with mass, charge, energy and frequency of the reference particle; refuted for others. Quadrupoles, electric quadrupoles and solenoids given by field curves: cut between samples with use_range, lengths in proportion, alone and within a line; not cut within a sample. |
| C30 Per-charge-state arrays stay aligned | partial | `C30_stays_aligned`, `C30_after_failures_partial`, `C30_empty_stripper_refuted` | Invariant over all advance functions; a retry after any number of failed propagations follows from it by induction on the attempts. Every lattice of all 14 element kinds, every history of reconfigurations and completed propagations in both directions. Propagations that throw may be part of the history as long as the number of charge states stays the same. False in release builds when a stripper lists no charge states (witness); failures with a changing number of charge states are not covered. |
| C31 Covariances stay symmetric and positive semidefinite | partial | `C31_covariances_stay`, `C31_with_strippers`, `C31_stripper_refuted`, `C31_envelope_covariance`, `C31_with_strippers_and_cavities` | T M T^t preserves forms; sums of forms. Every lattice without strippers, every history and direction; with strippers for beams whose constant component does not vary, false otherwise (witness). |
| C32 Forward then backward returns to the start | partial | `C32_forward_then_backward`, `C32_with_cavities`, `C32_both_ways_complete`, `C32_after_backward_refuted` | Round trip of one element, induction over the range with the loop of the propagation; backward hits no forward entry, as phases differ, or an equal one. MomentMatrix, exact arithmetic: every range of markers, monitors, drifts, magnetic and electric quadrupoles, solenoids, sector and electrostatic bends, correctors and matrices, misaligned or not, and of RF cavities without pitch, yaw and emittance growth; every state of moving particles; every history of reconfigurations and completed forward propagations. Completion is proved from the settings. False after a backward propagation (witness). The field computations of the cavities are not modelled. |
| C33 Transfer matrix caching is invisible | partial | `C33_one_direction_partial`, `C33_direction_refuted`, `C33_failed_refuted` | Invariant relating the cache to the entry. MomentMatrix, all 14 element kinds, every history of reconfigurations and completed propagations in one direction. False when the history went the other way, and after a propagation that threw (witnesses). |
| C34 Envelope centroid is the charge weighted mean | proved | `C34_new_states_consistent`, `C34_envelopes_consistent`, `C34_between`, `C31_envelope_covariance` | Every state a machine shows or ends in, after every history of reconfigurations and completed propagations; exact arithmetic. The constant component of the envelope matrix is reported as zero. |
| C35 Zero misalignment is no misalignment | partial | `C35_placed_well`, `C35_only_the_frame_matters`, `C35_shifted_with_the_beam` | Step of one element as entrance frame, optics independent of the placing, exit frame; frames of a shift are translations. MomentMatrix, exact arithmetic, every forward history. Well placed: quadrupoles (magnetic, electric), solenoids, correctors and sector magnets act as fields and edges alone. Frame: of two elements differing in their placing only (these kinds but correctors, and electric dipoles and sextupoles), beams looking alike at the entrance look alike at the exit; moving element and beam together moves what comes out. Missing: cavities and strippers; correctors in the statements on frames, as these kick before the change of frame. |
| C36 Stripper output | proved | `C36_what_a_stripper_leaves`, `C36_completes`, `C36_backward_refused`, `C36_inconsistent_refused` | Closed form of the element; the growth loops multiply rows and columns. MomentMatrix, exact arithmetic: all settings of a stripper (given and computed weights), every aligned state, every history of reconfigurations and completed propagations in both directions. The full outgoing state is described: charges, weights (Baron's formula if computed), energies, phases, common centroid, pooled and scattered covariance. Completion is proved from the settings and a beam whose momenta vary; otherwise the program divides by zero. |
| C37 A cloned state is complete and independent | partial | `C37_shows_the_same`, `C37_independent`, `C37_assigned`, `C37_not_assigned`, `C37_propagates_alike`, `C37_linear_propagates_alike`, `C37_once_more`, `C37_next_elem_refuted`, `C37_where_to_continue_refuted` | Invariant: blocks of different objects are disjoint. All three kinds of states. Independence: any program that creates, clones, assigns, changes, propagates and deletes states, as an invariant on who owns which memory. Clones show the same attributes and propagate alike through any machine; for MomentMatrix also after the original has gone the same way. The claim as stated fails in one respect, which is refuted: next_elem (and the direction) of a clone are reset, so a clone taken on the way does not know where to continue. |
| C38 Numeric tables | partial | `C38_numbers_of_the_text`, `C38_unequal_rows_refused`, `C38_any_text_partial`, `C38_last_word_dropped_refuted`, `C38_blank_lines`, `C38_crlf_blank_line_refuted`, `C38_comment_line_refuted`, `C38_reused_table_refuted`, `C38_series_in_rows`, `C38_series_incomplete_refuted` | Induction over lines and characters; strtod by Flocq. Every text made of blank lines, headers and rows of decimal numbers; for every other text what a successful read means. False for malformed numbers at the end of a line, blank lines ended by CRLF, later lines beginning with %, tables that are read into twice, incomplete series (witnesses). |
| C39 Table cache freshness | partial | `C39_cache_is_current_partial`, `C39_relative_path_refused`, `C39_same_second_refuted`, `C39_older_file_refuted`, `C39_changed_meanwhile_refuted` | Invariant relating every cached table to the file. Every history of writing, removing, clearing and fetching in which files do not change during a fetch and later writes have later times. False otherwise (witnesses). |
| C40 Index iteration is exhaustive | partial | `C40_every_index_once`, `C40_empty_dimension_refuted` | Mixed-radix value of the index. All shapes without an empty dimension. False with one (witness). |
| C41 State arrays: write then read | partial | `C41_read`, `C41_write_then_read`, `C41_number_write_then_read`, `C41_mismatch_refused`, `C41_other_names`, `C41_failed_assignment_refuted`, `C41_large_integer_refuted`, `C41_float_to_integer_refuted`, `C41_deletion_refuted` | Places of variables are distinct; induction on the visited indices. Every state type with at least one charge state, every attribute, every array (any strides, negative ones too) and every number that fits. False of assignments that raise because an integer is out of range (something is stored), of floats assigned to next_elem, and of del (witnesses). |
| C42 HDF5 output records the state | partial | `C42_each_recorded`, `C42_packed_recorded`, `C42_charge_states_refuted`, `C42_fewer_charge_states_refuted` | Invariant on the datasets, induction on the history. Vectors, matrices and moment states with one charge state: every attribute, every history. Moment states with any, changing, numbers of charge states: the attributes that lie side by side in memory. False of the per charge state attributes with more than one charge state (witnesses). |
| C43 Power series helpers | proved | `C43_power`, `C43_fit_is_the_polynomial`, `C43_series_is_the_polynomial`, `C43_negative_exponent_refuted` | Induction on bits, on coefficients. Exact arithmetic, every base, every exponent an int can be but negative ones, with which the program does not end (proved for every number of rounds; no caller passes one); coefficient lists of any length. |
| C44 Cavity energy never below rest energy | proved | `C44_what_is_tracked`, `C44_not_below_rest`, `C44_stays_above_rest`, `C44_stopped_particle_refuted` | Loop of the tracking compared with the midpoint rule; invariant over all elements and their caches. Exact arithmetic: every field table of two rows or more, every phase, charge, scale and incoming energy; and every state of every propagation, both directions, after every history. A particle that is stopped before the last row comes out as NaN, not as a number (witness). |
| C45 State attribute enumeration | proved | `C45_dense`, `C45_what_they_are`, `C45_stays`, `C45_python_names` | Case analysis on the index. Every state type, every number of charge states but zero, every index. |
| C46 Inspecting a machine does not change it | partial | `C46_inspection_changes_machine_refuted`, `C46_inspection_keeps_lookups_partial` | False: Machine.conf(i) flattens the shared map, so the listing of the element in Machine.conf() changes. Lookups are proved unaffected. |
| C47 Initial moment state construction | partial | `C47_built_iff_described`, `C47_holds_the_config`, `C47_wrong_length_refuted` | Every Config: construction succeeds exactly for the stated Configs and yields what they say. Without IonChargeStates arrays of the wrong length are silently ignored (witness). |
| C48 Numbers in lattice files are correctly rounded | proved | `C48_literals_correctly_rounded`, `C48_literal_range`, `C48_arithmetic_correctly_rounded` | Every literal of every text; strtod itself is modelled as exact rational rounding, and proved nearest-even against an order-theoretic definition. |
| C49 Element matrices solve the equations of motion | partial | `C49_follows_the_motion`, `C49_motion_is_unique`, `C49_moment_follows_the_motion`, `C49_course_is_unique`, `C49_course_can_be_retraced`, `C49_element_completes`, `C49_electric_dipole_partial`, `C49_electric_dipole_phase_refuted`, `C49_electric_dipole_focusing_refuted`, `C49_defocusing_bend_refuted` | Derivatives of matrix entries; uniqueness by an energy argument. Refutations: the unique motion is computed and one entry of the matrix compared. Vector and TransferMatrix types: every element with a fixed optics formula, all parameters; the solution is proved unique. MomentMatrix: markers, monitors, drifts, magnetic and electric quadrupoles and solenoids (uniform or given by curves), correctors, sector bends focusing in their plane and given matrices, with misalignment, per charge state, every history. Electric dipoles: proved for charge states like the reference particle with the focusing and pace of phases the code has; both are refuted to be those of the field. Bends that defocus in their plane: refuted. Sextupoles and cavities not covered. |
| C50 Ions keep their identity | proved | `C50_ions_kept`, `C50_energies_kept`, `C50_ions_kept_by_cavities` | Every lattice, history and direction, whatever the cavities compute as long as they change energy and phase only, and with the cavity computations of rf_cavity.cpp. |
| C51 Position and phases advance with the path | proved | `C51_position_and_phases`, `C51_along_a_line` | Every guiding element, both directions, every history of reconfigurations and completed propagations in that direction; exact arithmetic. |
| C52 Energy gain of a cavity is bounded by its field | proved | `C52_gain_is_bounded`, `C52_fast_enough` | Triangle inequality along the track. Exact arithmetic, every table, phase, charge, scale and energy. |
| C53 Cavity phase counts modulo a full turn | proved | `C53_full_turns`, `C53_same_computations` | Full turns are carried through tracking, gaps and pieces; cosines and sines do not see them. Exact arithmetic: every cavity of every type, all data files, all beams and histories of forward propagation; and each computation for every particle, failures included. |
| C54 A cavity without field is a drift | proved | `C54_no_field` | With no field all kicks are identities and energies stay; drifts add up. Exact arithmetic: every cavity of every type, all data files as expected, all moving beams, every history of forward propagation. The matrix is stated for cavities that are not misplaced (misplaced ones: C58). |
| C55 Structure of cavity matrices | proved | `C55_shape_of_the_matrix` | Closure of shape and determinants under products; frequency jump entry by entry. Exact arithmetic, every cavity of every type, all data files, all particles for which the computation ends with numbers. |
| C56 Cavity data files are never read out of bounds | partial | `C56_proper_files_build`, `C56_proper_files_propagate`, `C56_narrow_tables_refused`, `C56_short_attr_refuted`, `C56_odd_field_refuted`, `C56_unparsable_refuted`, `C56_no_gap_refuted`, `C56_short_limit_refuted` | Bounds carried from the files through every computation. Proved if files are as expected (conditions on lengths in Cavity_Spec), missing files included; false otherwise (five witnesses). How the lines of the thin lens files are read is C66. |
| C57 The gaps of a symmetric cavity mirror each other | proved | `C57_mirrored_gaps`, `C57_fits_exist` | Comparison of the coefficients; reversal of the table. Exact arithmetic, all built-in fits with the coefficients of the source, every field table. |
| C58 A cavity reports the matrix it applied | proved | `C58_what_a_cavity_does` | Closed form of one forward step. Exact arithmetic; whatever the field computations give (instantiated with those of rf_cavity.cpp in the Example); forward propagation. |
| C59 A lattice handed through Python stays the same | partial | `C59_entries_partial`, `C59_elements_partial`, `C59_lattice_partial`, `C59_later_variables_refuted`, `C59_null_characters_refuted`, `C59_depth_refuted`, `C59_unreadable_refuted` | Induction on levels; the map is written in order, so that the list read back grows at its end; split of the map at the elements. Proved: the same entries at every level (three levels, no null characters); elements see their own entries and the variables whose names come before 'elements' in byte order. False: they see no later variables (witness: a file that builds a machine while its parsed form raises); strings with null characters, four levels, strings that are no UTF-8. |
| C60 From Python objects to Config | proved | `C60_last_value`, `C60_nested`, `C60_accepted`, `C60_shown_again`, `C60_printed` | Induction on the entries from the end, on levels. Every list of entries, every nesting; str as code points with UTF-8 as in RFC 3629, cut at a null character as the program does. |
| C61 Arguments of Machine() | partial | `C61_extra_partial`, `C61_extra_ignored`, `C61_extra_refuted`, `C61_no_crash_partial`, `C61_wrong_arguments_crash`, `C61_parse_raises`, `C61_never_crashes_refuted` | Case analysis; induction on the items of extra. Proved: extra becomes the presets of the parser for lattice texts; no crash for arguments of the right kind if the parser leaves the text in a defined way. False: extra is ignored with dicts and lists; a missing config, an extra of another kind or a read() without buffer dereferences a null pointer. |
| C62 Methods conf(), reconfigure() and allocState() | partial | `C62_reconfigured`, `C62_refused`, `C62_conf_back_partial`, `C62_config_lists_refuted`, `C62_allocated`, `C62_allocated_default`, `C62_conf_shows`, `C62_conf_raises` | By C60 and C23. Every machine, every element class, every dict. conf(i) can be given back if no list of Configs is visible from element i (raises otherwise, witness). |
| C63 The matrix of a Generic cavity is that of its pieces | proved | `C63_rays_through_the_pieces`, `C63_phase_and_energy`, `C63_damping` | Induction over the pieces with an invariant for the ray, the energy and phase, and the derivative of a curve of neighbouring particles (chain rule; derivatives found with Coquelicot). Exact arithmetic: every Generic cavity, every data file with tables of lengths an int holds, every particle for which the computation ends with numbers. The longitudinal derivatives are those with the transit time factors of the particle itself, as the program takes them; the way of the particle is that through the pieces, not the integration along the field table (C52). |
| C64 The matrix of a cavity with two gaps is that of its pieces | proved | `C64_two_gaps` | Induction on the pieces with the ray as invariant; the frequency jump entry by entry. Exact arithmetic, every cavity of the four built-in types, all data files, all particles for which the computation ends with numbers. The transit time factors of gaps and multipoles are those of the model (fits and tables; see C57). As in the program, velocity and energy for the kicks behind a magnetic quadrupole are means over its half until the next gap. |
| C65 Emittance growth in a cavity | partial | `C65_growth_partial`, `C65_emittance_partial`, `C65_longitudinal_refuted`, `C65_spread_refuted` | The closed formula is an integral (Coquelicot, antiderivatives); variance of a function under a density is not negative; one step of a cavity unfolded. Exact arithmetic, every cavity not shifted or tilted, every beam that gets through. The added mean squares of the angles are those of the integral over a parabolic density of phases and never negative; transverse emittances never shrink. False: the longitudinal factor can be below one, and the rms of the phases is taken for the half width of the density, so that too little is added. |
| C66 Data files of cavities are read as they are written | partial | `C66_pieces_of_the_text`, `C66_words_refused`, `C66_any_text_partial`, `C66_cavity_from_text`, `C66_generic_file`, `C66_broken_files_refused`, `C66_missing_number_unset`, `C66_missing_number_refuted`, `C66_half_a_number_refuted`, `C66_carriage_return_refuted`, `C66_settings`, `C66_documented_types_refuted` | State of the stream after each word; induction on the lines; elements one after the other. Every text of a thin lens file, every cavity. False: a line that ends before its last number, or within it, is accepted and leaves a number without value; with carriage returns every empty line becomes a piece; the type HFocus of the documentation is not known. Generic data files are taken as what the lattice parser made of them (C01-C10). |
| C67 Definitions on the command line | partial | `C67_malformed_refused`, `C67_as_if_written`, `C67_redefinition_refused_partial`, `C67_overwritten_refuted` | The text is split at its first equals sign and colon; assignments run before the text leave the environment of the definitions. Every definition, lattice text, machine and set of options; boost::lexical_cast<double> is an oracle. False: a definition of the lattice file does not overwrite one of the command line but is refused (the parser says the name is defined already), or parsing meets undefined behaviour before it (C06). |
| C68 What run_flame shows | partial | `C68_shown`, `C68_twice`, `C68_bad_limit`, `C68_bad_format`, `C68_one_meaning`, `C68_no_file`, `C68_known_arrays`, `C68_timeit_refuted`, `C68_no_file_refuted`, `C68_smallest_limit_refuted`, `C68_unknown_array_refuted` | Invariant on the observers while elements are selected; journeys with and without observers are compared. Every machine of elements that do not redirect the state, every selection, limit and format. False: with --timeit everything is shown twice, the second time for a state that has passed already; hdf5 without a file shows nothing without an error; the least int is accepted and then undefined; utest shows the first array for a name that there is not. The layout of the text is not modelled. |
| C69 A beamline is its elements one after the other | proved | `C69_line_is_its_elements`, `C69_only_the_entries_matter`, `C69_line_completes` | Induction on the line; the caches of a smooth history hold what a fresh element computes. Forward; every history of reconfigurations and completed forward propagations. The first two for all elements but cavities, the third for guiding elements with all their settings. |
| C70 Locations in HDF5 files | partial | `C70_opens_the_group`, `C70_only_what_is_named`, `C70_refused`, `C70_hangs`, `C70_file_alone_refuted`, `C70_absolute_refuted` | The positions of slashes decrease until the file is found; strong induction on the position. Every file system, text and tree of groups. False: a file without group does not open its root, and an absolute name without group never returns. |
| C71 Loading of datasets as matrices | partial | `C71_loaded`, `C71_refused`, `C71_program_partial`, `C71_program_catches`, `C71_program_refuted`, `C71_no_rows_refuted` | Paths as pieces between slashes; case analysis on the number of dimensions. Every dataset of numbers. False: no rows; h5loadertest with a dataset of the root group. Missing: data that are not numbers. |
| C72 What H5StateWriter writes can be loaded | partial | `C72_written_then_loaded_partial`, `C72_group_replaced`, `C72_refused`, `C72_matrices_refuted`, `C72_root_refuted`, `C72_absolute_refuted`, `C72_again_refuted`, `C72_reopened_refuted`, `C72_directory_refuted` | What is put at a path lies there and nothing else changes (induction on the path); the datasets are those of C42. Every file, group and list of states (VectorState, MatrixState, one charge state): numbers and vectors. False: matrices, locations without group, absolute names, reopened writers, missing directories. |
| C73 Attributes of the output file | partial | `C73_value_kept_partial`, `C73_short_refuted` | Lists of bytes. Every text whose memory is at least 16 bytes. False: shorter ones are read beyond their end. |
| C74 The phase an RF cavity is driven at | partial | `C74_named_types`, `C74_first_gap`, `C74_by_peaks`, `C74_phase_as_given`, `C74_seen_by_the_reference`, `C74_arrival_does_not_matter`, `C74_documented_fit_refuted`, `C74_documented_peaks_refuted` | Inversion of the computation of the reference particle; induction on the groups of five numbers. Exact arithmetic, every cavity, data file and reference particle that gets through; pow, log and exp are those of the reals. False: the formulas of the documentation, which adds the third number of the fit and has growing exponentials. |
| C75 Transit time factors | partial | `C75_tables_that_do`, `C75_from_the_table`, `C75_slopes`, `C75_no_more_than_the_field_partial`, `C75_uneven_refuted`, `C75_gap_fits`, `C75_gap_tables`, `C75_multipole_fits`, `C75_no_dipole_fits`, `C75_multipole_tables` | Sums over the rows; derivatives term by term; the even and the odd part are the real and imaginary part of one sum, bounded by the triangle inequality. Fits: Taylor shift and bisection in rational arithmetic, proved sound; powers by monotonicity. Exact arithmetic, every table; the 24 fits of multipoles and the 8 of gaps are bounded over their whole ranges by exact rational arithmetic (a checker proved sound). False: with rows at different distances the odd part can exceed the field, since it takes the distance of the rows where everything else takes the mean distance. The fits for gap 0 are never used. |
| C76 Threads of the virtual accelerator | proved | `C76_one_at_a_time`, `C76_always`, `C76_in_order`, `C76_comes_to_rest`, `C76_at_rest`, `C76_no_more_than_asked`, `C76_the_end`, `C76_undefined` | An invariant of all reachable systems: who holds the lock, that what is under way is a prefix of a record or simulation started in the state that the history replays to, and that a request implies a signal, a running worker or one about to wake up; a decreasing weight for rest. Every number of threads, every list of records, every interleaving of small steps, any Machine. epicsMutex is a lock, epicsEvent a binary semaphore. |
| C77 Links of the virtual accelerator's records | partial | `C77_settings`, `C77_indices`, `C77_readings`, `C77_readings_accepted`, `C77_readings_refused_partial`, `C77_leaves_no_trace_refuted`, `C77_orbits`, `C77_orbits_accepted`, `C77_orbits_refused_partial`, `C77_orbit_by_name_refuted`, `C77_three_dimensions`, `C77_prepare` | Soundness and completeness of the matcher for its expressions against concatenations of words; lookups as in C13; an invariant of simulations in use. Every text, any simulations. False: a refused record can leave an observer behind; the link of an orbit names a type, not an element. |
| C78 Settings of the virtual accelerator | partial | `C78_write`, `C78_rest`, `C78_accepted`, `C78_last`, `C78_scaled_partial`, `C78_scaled_whole`, `C78_scaled_refuted` | The setting is Machine::reconfigure() with one more number (C23); induction on the history. Every element, parameter, number and history, any Machine. False: a record with ASLO, AOFF or a linear conversion need not read back what was written to it, for rounding. |
| C79 Readings of the virtual accelerator | partial | `C79_run`, `C79_alarm`, `C79_reading`, `C79_shown`, `C79_orbit`, `C79_numbers`, `C79_defined`, `C79_current_refuted`, `C79_message_refuted` | A run visits all elements (C21) under observers (C26), so that what is kept is what left the elements; the machine behaves as a new one of the edited lattice (C24) since its element types depend on their Config only; induction on the history for the latest run. Definedness: every step of every thread, by the invariant of C76. Every lattice, history and interleaving; element types whose behaviour depends on their Config only and which leave next_elem alone. False: readings are without alarm after a setting was changed, though nothing was simulated since; the message of a failure outlives later successes. |
| C80 Databases for the virtual accelerator | partial | `C80_complete`, `C80_resolves`, `C80_names`, `C80_starts_partial`, `C80_waveforms`, `C80_manglers_refuted`, `C80_other_simulations_refuted`, `C80_without_markers_refuted`, `C80_field_tables_refuted` | The default mangler names the k-th element of a name by the name and k, so that the free number is always k (induction on the lattice); texts with macros expand to themselves but for those; names of records are split at their last colon. Acceptance: each template is checked against what C77 accepts; being accepted changes nothing that the next one needs. Every lattice; the templates that are shipped. Partial: all records start in MomentMatrix simulations with a marker whose elements have the parameters of the templates. False otherwise; with another mangler rows can name elements that there are not. |
| C81 Log messages | partial | `C81_passed_on`, `C81_lines`, `C81_python_partial`, `C81_python_refuted`, `C81_all_but_debug_refuted`, `C81_levels_partial`, `C81_negative_levels_refuted`, `C81_verbosity_partial`, `C81_verbosity_defined_partial`, `C81_verbosity_refuted`, `C81_overflow_refuted` | Induction on the sequence; texts are split at newlines. Every sequence of messages, loggers and levels. False: the Python logger loses the last character of each text; after import flame messages of level INFO are not passed on; a negative level turns messages off; --verbose 3 is --verbose 2, and large numbers are undefined. |
| C82 Machine.conf() as a dict | partial | `C82_given`, `C82_shows`, `C82_rebuilt`, `C82_put_back_partial`, `C82_null_characters_refuted`, `C82_recursively_refuted`, `C82_parsed_refuted` | Names without null characters stay distinct as str, so that no key is put twice (induction on the list); converting back looks at dicts and lists of pairs alike. Every Machine whose names are without null characters. False: names that differ after a null character collapse; lists within elements stay lists of pairs, though the helper says recursively; GLPSParser.parse() does not return an OrderedDict, as its documentation says. Putting conf(i) back needs an element that sees no lists of Configs (C62_config_lists_refuted). |
| C83 Markers and monitors do not change a digit | partial | `C83_marker`, `C83_line`, `C83_untouched`, `C83_momenta`, `C83_linear`, `C83_at_rest_refuted`, `C83_infinite_refuted` | Product with one is exact (Flocq), sums with zeros are; equality but for the sign of zero is a congruence of every operation (induction over the line). In double arithmetic, each operation rounded by itself: all numbers shown are the same but for the sign of zero. Elements behind the marker may have any matrix that does not depend on phases (cavities are left out). The state at the marker must be finite. False otherwise: for a beam at rest the wave number is infinite and the phase becomes NaN at a marker; an infinite component makes the others NaN. |
| C84 Covariances as they are rounded | partial | `C84_root`, `C84_shown_symmetric`, `C84_planes`, `C84_variance_near`, `C84_symmetric_near`, `C84_variance_refuted`, `C84_symmetric_refuted` | Signs of rounded sums, products, quotients and roots; zeros and NaN absorb under products and sums (induction over the line). Refuted by computed witnesses, shown to be covariance matrices over the reals. In double arithmetic. The envelope adds no negative variance and no asymmetry, and no rounding correlates planes an element keeps apart (cavities, bends' own advance and strippers left out). False: the product T M T' of an exact covariance matrix can have a negative variance, so that the rms is NaN, and need not be symmetric; both in a drift. By how much is bounded by C84_variance_near and C84_symmetric_near. |
| C85 Rounding errors are bounded | proved | `C85_centroid`, `C85_covariance`, `C85_vector_line`, `C85_position`, `C85_sizes` | Errors of one operation from Flocq (error_N_FLT, FLT_plus_error_N_ex); induction over the sum and over the line. For each element of a MomentMatrix line given the matrix it applied, for lines of any length of Vector simulations, and for positions. The errors of the matrices themselves (sines, cosines) are not covered, nor are cavities, bends and strippers. |
| C86 A lattice file may be as long as needed | partial | `C86_within`, `C86_agrees`, `C86_means`, `C86_too_deep`, `C86_statements`, `C86_lists`, `C86_any_length_refuted` | The parser of Glps_Model with the number of symbols on the stack; simulation with the parser without a limit; the tree it builds bounds the depth from below, the tokens from above. Refuted as stated: the generated parser holds at most 10000 states and the grammar is right-recursive, so texts of 9998 statements, beamlines of 4998 members, vectors of 4999 numbers or elements of 4998 properties are refused. Proved: what is refused, that nothing is misread, and that n statements of at most k tokens with n + k <= 9996 are read as without a limit. The number 10000 is bison's default YYMAXDEPTH, which glps.y does not change. |
| C87 Messages of the lattice parser name the line of the error | partial | `C87_reported`, `C87_lattice`, `C87_in_text`, `C87_cause`, `C87_culprit_refuted` | The parser of Glps_Model with the scanner's line and the first message; erasing them gives Glps_Model. Two texts with the same first lines are run side by side: until one reads beyond them both are in the same state, afterwards no new message can be about the common lines. Refuted as stated: an unknown name is reported for the line of the token behind it. Proved for every text: there is a message with a line number exactly when the text is refused by the parser, the line exists, and the message depends on nothing below that line. Messages of the conversion to a Config (no beamline, empty beamline) carry no line and are not covered. |
| C88 Memory of machines, elements and observers | partial | `C88_safe`, `C88_freed`, `C88_leak`, `C88_python_safe`, `C88_python_freed`, `C88_tool_freed`, `C88_tool_selected`, `C88_owner_frees_refuted`, `C88_shared_refuted`, `C88_failed_refuted`, `C88_uninitialised_refuted`, `C88_twice_refuted` | A memory of addresses on top of Machine_Model; an invariant ties what is live to a book in which every observer has one owner, and every call is shown to keep it. Refuted as stated: elements delete their observers though base.h asks that observers outlive them, a failed construction leaves elements in memory, and a Python Machine without successful __init__ crashes. Proved for every program which leaves an attached observer to its element, for every sequence of Python calls on initialised Machines, and for the command line tool. Memory inside of elements, states and Configs is not modelled. |
| C89 What printing machines and states says | partial | `C89_machine`, `C89_reconfigure`, `C89_silent`, `C89_trace`, `C89_trace_format`, `C89_txt`, `C89_tool`, `C89_formats`, `C89_levels`, `C89_particles`, `C89_sign`, `C89_digits`, `C89_python`, `C89_lattice`, `C89_lattice_python`, `C89_lattice_faithful`, `C89_forged_refuted`, `C89_format_refuted`, `C89_python_level_refuted`, `C89_vector_refuted` | Writers of text with a format that stays set; text in which no line begins like a heading is closed under concatenation, so the lines with headings can be counted by induction over the run. Digits of numbers as in C18. Refuted as stated: states of Vector simulations print nothing, txt output on the same stream changes the format of the trace, Python levels from 2^31 on show less, and a name with a line end makes up elements. The rest is proved. Streams in formats other than the default and the scientific one, --timeit and write failures are not modelled. |
| C90 Types, machines and registeryCleanup() | partial | `C90_agree`, `C90_safe`, `C90_stale`, `C90_freed`, `C90_again`, `C90_anytime_refuted`, `C90_refused_refuted` | Refinement: programs over a heap of builders and pointers against the registry and machines of Machine_Model; the invariant says which addresses are live (registry and leaked ones, each once) and that machines made since the last clean-up point into the registry's. Refuted as stated: machines keep raw pointers to builders that registeryCleanup() deletes, so reconfiguring a machine made before it reads freed memory (C90_stale says exactly when), and a builder whose registration throws is never freed. All else is proved for every order of calls. One thread only. |
| C91 The tutorial's simulation | partial | `C91_constructs`, `C91_result`, `C91_main`, `C91_source`, `C91_no_drift`, `C91_motion_refuted`, `C91_rest_refuted`, `C91_cut_refuted`, `C91_backward_refuted`, `C91_shown_refuted` | The two element classes as an instance of Machine_Model; an invariant ties each element to its entry through reconfigurations; induction over the loop of propagate. Proved: which lattices are accepted, that every entry acts once and in order also after reconfigurations, that a source resets all, what the program computes. Refuted: place and velocity do not follow Newton's law (velocity moves nothing, acceleration moves twice too far), halves of an element do not act as the whole, going backwards does not lead back, and no state is printed. |
| C92 Static calls from several threads | partial | `C92_atomic`, `C92_alone`, `C92_finishes`, `C92_deadlock`, `C92_anytime_refuted`, `C92_nested_refuted`, `C92_replaced_refuted` | Threads as lists of small steps over a shared state and one mutex; an invariant gives the order of calls by the moments at which they write; the number of steps left falls in every round. Proved for all interleavings: if no constructor of an element calls the framework (those shipped do not), the static calls answer as if made one after another, and all of them return. Proved as well: a constructor that does call it blocks its thread and all others for ever, which refutes 'at any time' for user-defined elements that warn or hold a machine. Refuted: a replaced logger gets no more messages. |
| C93 Caches of curve files and cavity data files | partial | `C93_curves_current`, `C93_cavity_current`, `C93_same_second_refuted`, `C93_put_back_refuted`, `C93_bad_file_refuted`, `C93_warm`, `C93_single`, `C93_threads_refuted` | Induction over histories: all that is in a cache came from a text that was in the file; keys are proved injective; for threads an invariant on who is within which access to the map. Proved for every history of files and any parser: what is used is what the file says now, if files do not change while they are looked at and different texts have different times; no race within one thread, nor between threads whose files were all read before. Refuted: files rewritten within the second, files put back with their old time, bad data files of cavities (crash), two threads of which one needs a new file (data race). |

## Assumptions per theorem

As printed by `Print Assumptions` under each theorem.  *Closed* means no axiom.
*Reals* stands for the axioms of the standard library's real numbers:
`ClassicalDedekindReals.sig_forall_dec`, `ClassicalDedekindReals.sig_not_dec`,
`FunctionalExtensionality.functional_extensionality_dep`.  *Reals + classic* adds
`Classical_Prop.classic`.

| assumptions | theorems |
|---|---|
| ClassicalDedekindReals.sig_forall_dec | `C43_negative_exponent_refuted` |
| ClassicalDedekindReals.sig_forall_dec, FunctionalExtensionality.functional_extensionality_dep | `C18_number_text`, `C31_envelope_covariance`, `C34_between`, `C43_fit_is_the_polynomial`, `C43_power`, `C43_series_is_the_polynomial`, `C84_symmetric_refuted`, `C84_variance_refuted`, `C85_sizes`, `C89_digits`, `C89_sign`, `C91_no_drift` |
| Closed | `C01_lookups_see_private_copies`, `C01_sharing_unobservable`, `C02_iteration_isolation_partial`, `C02_iteration_isolation_refuted`, `C03_new_scope_is_a_copy`, `C03_scoped_lookup`, `C04_typed_access`, `C05_swap_any_partial`, `C05_typed_swap_refuted`, `C06_abort_releases_properties_refuted`, `C06_no_undefined_conversion_refuted`, `C06_type_safety_partial`, `C07_lexical_error`, `C07_parse_means`, `C07_statement_error`, `C07_syntax_error`, `C08_expansion_order`, `C09_elements_are_defined`, `C09_undefined_member`, `C10_duplicate_definition`, `C10_first_property_wins`, `C10_preset_redefined`, `C11_empty_line_is_error`, `C11_last_line_otherwise`, `C11_no_line_is_error`, `C11_unknown_use_is_error`, `C11_use_selects`, `C12_element_sees_top_level`, `C12_elements_hidden`, `C12_globals_visible`, `C13_setvar_is_assignment`, `C14_at_most_one_candidate`, `C14_binary_meaning`, `C14_resolution`, `C14_unary_meaning`, `C15_nan_count_refuted`, `C15_repetition_checked_partial`, `C16_blanks_between_tokens`, `C16_boundary_after_every_lexeme`, `C16_error_iff_not_tokenisable`, `C16_lexer_terminates`, `C16_longest_match`, `C17_every_tree_can_be_written`, `C17_minus_binds_tightest`, `C17_one_tree`, `C17_parses_exactly_the_grammar`, `C17_precedence`, `C18_clash_refuted`, `C18_digits_refuted`, `C18_infinity_refuted`, `C18_nested_refuted`, `C18_quote_refuted`, `C18_twins_refuted`, `C19_beamline_order`, `C19_buildable`, `C20_all_elements_listed`, `C20_find_by_name_partial`, `C20_find_by_type`, `C20_lookup_after_rename_refuted`, `C21_ends_after_the_visits`, `C21_most_negative_max_refuted`, `C21_python_large_max_refuted`, `C21_visits`, `C21_visits_backward`, `C21_visits_forward`, `C22_composes`, `C22_throws`, `C23_changes_one_element`, `C23_throw_changes_nothing`, `C23_type_is_fixed`, `C24_reconfigured_like_new_partial`, `C25_duplicates_rejected`, `C25_holds_what_was_registered`, `C25_order_irrelevant`, `C26_indices_are_slots`, `C26_observer_calls`, `C26_python_observe`, `C26_python_observe_out_of_range`, `C37_assigned`, `C37_independent`, `C37_linear_propagates_alike`, `C37_next_elem_refuted`, `C37_not_assigned`, `C37_propagates_alike`, `C37_shows_the_same`, `C38_blank_lines`, `C38_comment_line_refuted`, `C38_crlf_blank_line_refuted`, `C38_reused_table_refuted`, `C38_series_in_rows`, `C38_series_incomplete_refuted`, `C39_cache_is_current_partial`, `C39_changed_meanwhile_refuted`, `C39_older_file_refuted`, `C39_relative_path_refused`, `C39_same_second_refuted`, `C40_empty_dimension_refuted`, `C40_every_index_once`, `C41_deletion_refuted`, `C41_failed_assignment_refuted`, `C41_float_to_integer_refuted`, `C41_large_integer_refuted`, `C41_mismatch_refused`, `C41_number_write_then_read`, `C41_other_names`, `C41_read`, `C41_write_then_read`, `C42_charge_states_refuted`, `C42_each_recorded`, `C42_fewer_charge_states_refuted`, `C42_packed_recorded`, `C45_dense`, `C45_python_names`, `C45_stays`, `C45_what_they_are`, `C46_inspection_changes_machine_refuted`, `C46_inspection_keeps_lookups_partial`, `C56_odd_field_refuted`, `C56_short_attr_refuted`, `C56_unparsable_refuted`, `C59_depth_refuted`, `C59_elements_partial`, `C59_entries_partial`, `C59_lattice_partial`, `C59_null_characters_refuted`, `C59_unreadable_refuted`, `C60_accepted`, `C60_last_value`, `C60_nested`, `C60_printed`, `C60_shown_again`, `C61_extra_ignored`, `C61_extra_partial`, `C61_extra_refuted`, `C61_never_crashes_refuted`, `C61_no_crash_partial`, `C61_parse_raises`, `C61_wrong_arguments_crash`, `C62_allocated`, `C62_allocated_default`, `C62_conf_back_partial`, `C62_conf_raises`, `C62_conf_shows`, `C62_config_lists_refuted`, `C62_reconfigured`, `C62_refused`, `C66_carriage_return_refuted`, `C66_missing_number_refuted`, `C67_as_if_written`, `C67_malformed_refused`, `C67_overwritten_refuted`, `C67_redefinition_refused_partial`, `C68_bad_format`, `C68_bad_limit`, `C68_known_arrays`, `C68_no_file`, `C68_no_file_refuted`, `C68_one_meaning`, `C68_shown`, `C68_smallest_limit_refuted`, `C68_timeit_refuted`, `C68_twice`, `C68_unknown_array_refuted`, `C70_absolute_refuted`, `C70_file_alone_refuted`, `C70_hangs`, `C70_only_what_is_named`, `C70_opens_the_group`, `C70_refused`, `C71_loaded`, `C71_no_rows_refuted`, `C71_program_catches`, `C71_program_partial`, `C71_program_refuted`, `C71_refused`, `C72_absolute_refuted`, `C72_again_refuted`, `C72_directory_refuted`, `C72_group_replaced`, `C72_matrices_refuted`, `C72_refused`, `C72_reopened_refuted`, `C72_root_refuted`, `C72_written_then_loaded_partial`, `C73_short_refuted`, `C73_value_kept_partial`, `C76_always`, `C76_at_rest`, `C76_comes_to_rest`, `C76_in_order`, `C76_no_more_than_asked`, `C76_one_at_a_time`, `C76_the_end`, `C76_undefined`, `C77_indices`, `C77_leaves_no_trace_refuted`, `C77_orbit_by_name_refuted`, `C77_orbits`, `C77_orbits_accepted`, `C77_orbits_refused_partial`, `C77_prepare`, `C77_readings`, `C77_readings_accepted`, `C77_readings_refused_partial`, `C77_settings`, `C77_three_dimensions`, `C78_accepted`, `C78_last`, `C78_rest`, `C78_scaled_partial`, `C78_scaled_refuted`, `C78_write`, `C79_alarm`, `C79_current_refuted`, `C79_defined`, `C79_message_refuted`, `C79_numbers`, `C79_orbit`, `C79_reading`, `C79_run`, `C79_shown`, `C80_complete`, `C80_field_tables_refuted`, `C80_manglers_refuted`, `C80_names`, `C80_other_simulations_refuted`, `C80_resolves`, `C80_starts_partial`, `C80_waveforms`, `C80_without_markers_refuted`, `C81_all_but_debug_refuted`, `C81_levels_partial`, `C81_lines`, `C81_negative_levels_refuted`, `C81_overflow_refuted`, `C81_passed_on`, `C81_python_partial`, `C81_python_refuted`, `C81_verbosity_defined_partial`, `C81_verbosity_partial`, `C81_verbosity_refuted`, `C82_given`, `C82_null_characters_refuted`, `C82_parsed_refuted`, `C82_put_back_partial`, `C82_rebuilt`, `C82_recursively_refuted`, `C82_shows`, `C83_at_rest_refuted`, `C83_infinite_refuted`, `C84_planes`, `C84_root`, `C84_shown_symmetric`, `C86_agrees`, `C86_any_length_refuted`, `C86_lists`, `C86_means`, `C86_statements`, `C86_too_deep`, `C86_within`, `C87_cause`, `C87_culprit_refuted`, `C87_in_text`, `C87_lattice`, `C87_reported`, `C88_failed_refuted`, `C88_freed`, `C88_leak`, `C88_owner_frees_refuted`, `C88_python_freed`, `C88_python_safe`, `C88_safe`, `C88_shared_refuted`, `C88_tool_freed`, `C88_tool_selected`, `C88_twice_refuted`, `C88_uninitialised_refuted`, `C89_forged_refuted`, `C89_format_refuted`, `C89_formats`, `C89_lattice`, `C89_lattice_faithful`, `C89_lattice_python`, `C89_levels`, `C89_machine`, `C89_particles`, `C89_python`, `C89_python_level_refuted`, `C89_reconfigure`, `C89_silent`, `C89_tool`, `C89_trace`, `C89_trace_format`, `C89_txt`, `C89_vector_refuted`, `C90_again`, `C90_agree`, `C90_anytime_refuted`, `C90_freed`, `C90_refused_refuted`, `C90_safe`, `C90_stale`, `C91_backward_refuted`, `C91_constructs`, `C91_cut_refuted`, `C91_main`, `C91_result`, `C91_shown_refuted`, `C91_source`, `C92_alone`, `C92_anytime_refuted`, `C92_atomic`, `C92_deadlock`, `C92_finishes`, `C92_nested_refuted`, `C92_replaced_refuted`, `C93_bad_file_refuted`, `C93_cavity_current`, `C93_curves_current`, `C93_put_back_refuted`, `C93_same_second_refuted`, `C93_single`, `C93_threads_refuted`, `C93_warm` |
| Reals | `C24_linear_source_refuted`, `C24_linear_without_source`, `C27_through_a_source_refuted`, `C27_vector_is_matrix_applied`, `C28_linear_determinants`, `C28_linear_elements`, `C28_linear_line`, `C29_cut_matrix`, `C29_cut_vector`, `C29_linear_elements`, `C37_where_to_continue_refuted`, `C44_not_below_rest`, `C44_stopped_particle_refuted`, `C44_what_is_tracked`, `C47_wrong_length_refuted`, `C49_follows_the_motion`, `C52_fast_enough`, `C59_later_variables_refuted`, `C66_generic_file`, `C66_settings`, `C75_from_the_table`, `C75_multipole_fits`, `C75_multipole_tables`, `C75_no_dipole_fits`, `C75_no_more_than_the_field_partial`, `C75_slopes`, `C75_tables_that_do`, `C75_uneven_refuted` |
| Reals + classic | `C18_exact_partial`, `C18_number_read`, `C18_parsed_partial`, `C18_round_trip_partial`, `C28_electric_dipole_partial`, `C28_electric_dipole_phase_refuted`, `C28_electric_dipole_refuted`, `C28_emittances_stay`, `C28_moment_elements`, `C28_moment_line`, `C29_electric_dipole_partial`, `C29_electric_dipole_refuted`, `C29_field_line`, `C29_field_parts`, `C29_moment_halves`, `C29_moment_line`, `C30_after_failures_partial`, `C30_empty_stripper_refuted`, `C30_stays_aligned`, `C31_covariances_stay`, `C31_stripper_refuted`, `C31_with_strippers`, `C31_with_strippers_and_cavities`, `C32_after_backward_refuted`, `C32_both_ways_complete`, `C32_forward_then_backward`, `C32_with_cavities`, `C33_direction_refuted`, `C33_failed_refuted`, `C33_one_direction_partial`, `C34_envelopes_consistent`, `C34_new_states_consistent`, `C35_only_the_frame_matters`, `C35_placed_well`, `C35_shifted_with_the_beam`, `C36_backward_refused`, `C36_completes`, `C36_inconsistent_refused`, `C36_what_a_stripper_leaves`, `C37_once_more`, `C38_any_text_partial`, `C38_last_word_dropped_refuted`, `C38_numbers_of_the_text`, `C38_unequal_rows_refused`, `C44_stays_above_rest`, `C47_built_iff_described`, `C47_holds_the_config`, `C48_arithmetic_correctly_rounded`, `C48_literal_range`, `C48_literals_correctly_rounded`, `C49_course_can_be_retraced`, `C49_course_is_unique`, `C49_defocusing_bend_refuted`, `C49_electric_dipole_focusing_refuted`, `C49_electric_dipole_partial`, `C49_electric_dipole_phase_refuted`, `C49_element_completes`, `C49_moment_follows_the_motion`, `C49_motion_is_unique`, `C50_energies_kept`, `C50_ions_kept`, `C50_ions_kept_by_cavities`, `C51_along_a_line`, `C51_position_and_phases`, `C52_gain_is_bounded`, `C53_full_turns`, `C53_same_computations`, `C54_no_field`, `C55_shape_of_the_matrix`, `C56_narrow_tables_refused`, `C56_no_gap_refuted`, `C56_proper_files_build`, `C56_proper_files_propagate`, `C56_short_limit_refuted`, `C57_fits_exist`, `C57_mirrored_gaps`, `C58_what_a_cavity_does`, `C63_damping`, `C63_phase_and_energy`, `C63_rays_through_the_pieces`, `C64_two_gaps`, `C65_emittance_partial`, `C65_growth_partial`, `C65_longitudinal_refuted`, `C65_spread_refuted`, `C66_any_text_partial`, `C66_broken_files_refused`, `C66_cavity_from_text`, `C66_documented_types_refuted`, `C66_half_a_number_refuted`, `C66_missing_number_unset`, `C66_pieces_of_the_text`, `C66_words_refused`, `C69_line_completes`, `C69_line_is_its_elements`, `C69_only_the_entries_matter`, `C74_arrival_does_not_matter`, `C74_by_peaks`, `C74_documented_fit_refuted`, `C74_documented_peaks_refuted`, `C74_first_gap`, `C74_named_types`, `C74_phase_as_given`, `C74_seen_by_the_reference`, `C75_gap_fits`, `C75_gap_tables`, `C78_scaled_whole`, `C83_line`, `C83_linear`, `C83_marker`, `C83_momenta`, `C83_untouched`, `C84_symmetric_near`, `C84_variance_near`, `C85_centroid`, `C85_covariance`, `C85_position`, `C85_vector_line`, `C91_motion_refuted`, `C91_rest_refuted` |

## What the refutations found

The theorems ending in `_refuted` exhibit, on the faithful model, behaviour that
contradicts the property:

* `Config::flatten` writes through a shared inner map (C02), so `Machine.conf(i)` changes
  what `Machine.conf()` lists (C46); `swap<T>` loses the old value (C05).
* A NaN repetition count is cast to unsigned (C06, C15); aborting a parse frees memory
  from `new` with the wrong function (C06).
* `lookup` is stale after a reconfigure that renames (C20); INT_MIN and Python's long bounds
  for propagate (C21); a linear source keeps its old state on reconfigure (C24).
* A stripper without charge states leaves a state without any in release builds (C30) and
  scales the last row of covariance matrices inconsistently (C31).
* The transfer matrix cache is not keyed on direction and is poisoned by a failed
  recomputation (C33); arrays of the wrong length are silently ignored (C47).
- C93: CurveMap is changed without a lock while states are propagated, so that two threads with machines of their own race; a bad generic cavity file leaves a null pointer in CavConfMap, which is then used.
- C92: Machine's constructor holds the registry's non-recursive mutex while constructors of elements run; one that writes a message at an enabled level, registers a type or constructs a Machine blocks for ever, and with it every other thread that uses the framework.
- C91: the tutorial's generic element adds A*t*t to the place instead of v*t + A*t*t/2, ignores the direction of propagation, and State1D::show() lacks the level parameter, so that the tutorial prints no state.
- C90: registeryCleanup() deletes builders to which living machines keep pointers: reconfigure() of a machine made before is a use after free, also when the types are registered again (base.h:491 says that it may be called at any time). registerElement() leaks the builder when it throws.
- C89: VectorState::show() lacks the level parameter and so overrides nothing: str(), show(), the trace and the txt output of Vector simulations show no state. std::scientific and std::setprecision stay set on the stream: with txt output on std::cout the trace and the final state of -v are in another format. State.show(level) takes the last 32 bits of the level as int. A line end in an element's name makes up lines of the machine's text.

- base.h asks that an Observer outlive the element it is attached to, but the element deletes it: its owner deletes it a second time (`C88_owner_frees_refuted`), and one observer for two elements is deleted twice with the machine (`C88_shared_refuted`).
- A Machine whose construction fails leaves every element in front of the failing one in memory (`C88_leak`, `C88_failed_refuted`); a second `__init__` of a Python Machine leaks the first (`C88_twice_refuted`); methods of one made by `Machine.__new__` alone dereference NULL (`C88_uninitialised_refuted`).
- An unknown name is reported for the line of the token after it, not its own: `x = y`, two line ends and `;` give "On line 3" (`C87_culprit_refuted`).
- A lattice file of 9998 statements cannot be read ("memory exhausted"), nor one with a beamline of 4998 members or a vector of 4999 numbers: the grammar is right-recursive and bison's stack holds 10000 states (`C86_any_length_refuted`, `C86_statements`, `C86_lists`).
- A covariance matrix with a waist at the end of a drift comes out with a variance of -8.5e-14; `x_rms` is NaN (`C84_variance_refuted`). A drift of 1 mm makes `moment1` differ from its transpose (`C84_symmetric_refuted`).
- With IonEk 0 a marker turns `phis` into NaN: the wave number is infinite and is multiplied by the length 0 (`C83_at_rest_refuted`).
- `C29_electric_dipole_refuted`: an electric dipole cut in two is not the dipole, for a charge state other than the reference particle's. GetEBendMatrix (src/moment_sup.cpp:368-372) sets the offsets of position and angle such a charge state gets, but not that of its phase (`M(PS_S,6)` stays 0). The second half turns the offsets of the first into phase, the whole dipole does not.
- `GLPSParser.parse()` returns a list, its documentation says OrderedDict (`C82_parsed_refuted`); `_list2odict` does not go into the elements (`C82_recursively_refuted`).
- The Python logger drops the last character of every message (`C81_python_refuted`: `substr(0, pos)` where `pos+1` was meant). `import flame` sets FLAME_WARN though its comment says that all but DEBUG is passed on (`C81_all_but_debug_refuted`); `setLogLevel` keeps 16 bits, so negative levels turn messages off (`C81_negative_levels_refuted`); `--verbose 3` does the same as 2 (`C81_verbosity_refuted`), and large numbers overflow (`C81_overflow_refuted`).
- The database generator (python/flame/ioc.py) numbers elements by the name the mangler gave, but the IOC by their own name: with another mangler than the default rows can name elements that there are not (`C80_manglers_refuted`). Its templates are those of MomentMatrix whatever the simulation (`C80_other_simulations_refuted`), orbit.db is refused in lattices without markers (`C80_without_markers_refuted`), and solenoids or quadrupoles given by field tables have records for parameters they do not have (`C80_field_tables_refuted`).
- In the virtual accelerator readings stay without alarm after a setting was changed, until the next simulation (`C79_current_refuted`); the record of the latest message shows a failure even after later successes (`C79_message_refuted`, vaccel/flame.cpp:59-62 sets it and nothing clears it); a record with a scale or offset need not read back what was written, for rounding (`C78_scaled_refuted`).
- In the virtual accelerator the link of an orbit is documented to hold the name of elements, but it is the type that is looked up (`C77_orbit_by_name_refuted`); a reading that is refused for its attribute leaves its observer behind (`C77_leaves_no_trace_refuted`); attributes of three dimensions (moment1, transmat) can not be read (`C77_three_dimensions`).
- The documentation of the synchronous phase (sphinx_doc/element.rst) adds the third number of the fit where the code subtracts it (`C74_documented_fit_refuted`) and has growing exponentials of the energy where the code has falling ones (`C74_documented_peaks_refuted`); its piece HFocus is not known (`C66_documented_types_refuted`), and what it calls HMono is focusing, not a dipole.
- calTransfac takes the distance of the rows for S and the mean distance for everything else; with rows at different distances S can exceed 1 (`C75_uneven_refuted`).
- `H5Loader` and `H5StateWriter` never return when given the absolute name of a file without a group (`C70_absolute_refuted`, `C72_absolute_refuted`): when the slash at position 0 has been tried, `sep-1` is `npos` and the search starts again. So `-F hdf5,file=/tmp/out.h5` hangs.
- `H5Loader` can not open the root group: without a group in the text it looks for a group of the name of the file (`C70_file_alone_refuted`); h5loadertest fails for its own example file.h5/dataset (`C71_program_refuted`), and what was written without naming a group can not be loaded from there (`C72_root_refuted`).
- Writing to a file without naming a group fails if done again (`C72_again_refuted`); a writer opened a second time goes on writing to the first place (`C72_reopened_refuted`, elements are not cleared); a directory that does not exist becomes a file (`C72_directory_refuted`).
- Matrices that were written can not be loaded (`C72_matrices_refuted`); a dataset without rows is an error (`C71_no_rows_refuted`); `setAttr` reads 16 bytes of shorter values (`C73_short_refuted`).
- **C49_electric_dipole_focusing_refuted**: `ElementEDipole` focuses with `(1 - spher + gamma^2)/rho^2` in the plane of the bend; the field focuses with `(1 - spher + 1/gamma^2)/rho^2`.
- **C49_electric_dipole_phase_refuted**, **C28_electric_dipole_phase_refuted**: `GetEBendMatrix` multiplies the row of phases by `gamma/(1+gamma)`, which belongs to the coordinates of another program; phases change about half as fast as they should, and areas are not kept.
- **C28_electric_dipole_refuted**: with `asym_fac` both edges scale angles by `sqrt(1 + asym_fac)`, the exit does not undo the entrance.
- **C49_defocusing_bend_refuted**: `GetSBendMatrix` uses `sin` where `sinh` belongs when the magnet defocuses in its plane.
- The help text of run_flame says that definitions with -D are overwritten by those in the lattice file; in fact such a file is refused (`C67_overwritten_refuted`). With --timeit all output comes twice, the second time for a state that has already passed the machine (`C68_timeit_refuted`); -F hdf5 without file= writes nothing and succeeds (`C68_no_file_refuted`); -M -2147483648 is undefined (`C68_smallest_limit_refuted`); -F utest shows the first array for every unknown name (`C68_unknown_array_refuted`).
- A line of a thin lens file that ends before or within its last number is accepted and leaves a double without value (`C66_missing_number_refuted`, `C66_half_a_number_refuted`); with carriage returns every empty line becomes a piece without type (`C66_carriage_return_refuted`).
- EmitGrowth can shrink the spread of energies (`C65_longitudinal_refuted`), and takes the rms of the phases for the half width of the density they are spread with, whose rms is smaller by the square root of 7, so that it adds too little to the angles (`C65_spread_refuted`).
- a lattice that went through Python (`Machine(GLPSParser().parse(f))`) is not the one in the file: elements no longer see variables whose names come after "elements" in byte order, like `phi`, `sim_type` or `skipcache` (`C59_later_variables_refuted`); strings are cut at null characters (`C59_null_characters_refuted`); four levels are shown but not read (`C59_depth_refuted`); strings that are no UTF-8 can not be shown (`C59_unreadable_refuted`).
- `Machine()` without config, with an extra that is no dict, or with a file whose read() gives no buffer dereferences a null pointer (`C61_never_crashes_refuted`); with dicts and lists extra is ignored (`C61_extra_refuted`).
- `reconfigure(i, dict(conf(i)), replace=True)` raises if a list of Configs is visible from the element (`C62_config_lists_refuted`).
- GLPSPrint rounds numbers to six digits (`C18_digits_refuted`); the text it writes does not parse if a number is infinite (`C18_infinity_refuted`), a variable has the name of an element (`C18_clash_refuted`) or a string holds a quote (`C18_quote_refuted`); elements that share a name come back with the properties of the first (`C18_twins_refuted`); properties that are lists of Configs are dropped (`C18_nested_refuted`).
- a particle that a cavity stops before the last row of its table comes out with energy and phase NaN (`C44_stopped_particle_refuted`); `ipow` does not return for negative exponents (`C43_negative_exponent_refuted`).
- cavity data files are not checked: short `attr` lists are read beyond their end (`C56_short_attr_refuted`), an odd number of field values writes beyond the table (`C56_odd_field_refuted`), a file that does not parse is a null pointer (`C56_unparsable_refuted`), and without gap the synchronous phase is read from an empty vector (`C56_no_gap_refuted`).
- An `EnergyLimit` with fewer than two entries is read beyond its end by the first propagation (`C56_short_limit_refuted`).
- a clone forgets where it is: its next_elem is 0 (`C37_next_elem_refuted`, `C37_where_to_continue_refuted`).
- going forward and then backward does not restore the phase if the element was passed backward before from the same state (`C32_after_backward_refuted`).
- a number table drops what it can not read at the end of a line (`C38_last_word_dropped_refuted`), refuses blank lines with CRLF line ends (`C38_crlf_blank_line_refuted`), takes every % line for the header (`C38_comment_line_refuted`), and keeps names and shape of what it held before (`C38_reused_table_refuted`); `readvec` writes out of bounds for an odd number of values (`C38_series_incomplete_refuted`).
- the table cache misses rewrites within the same second, older replacements, and rewrites during a fetch (`C39_same_second_refuted`, `C39_older_file_refuted`, `C39_changed_meanwhile_refuted`).
- the index iterator visits tuples out of range if a dimension is empty (`C40_empty_dimension_refuted`).
- assigning an integer that is out of range to a scalar attribute raises, but stores -1 (`C41_failed_assignment_refuted`, `C41_large_integer_refuted`); a float assigned to next_elem is cut off (`C41_float_to_integer_refuted`); del of an attribute dereferences a null pointer (`C41_deletion_refuted`).
- the HDF5 writer ignores strides: per charge state attributes are recorded wrongly with two charge states or more (`C42_charge_states_refuted`), and rows recorded before lose values when the number of charge states falls (`C42_fewer_charge_states_refuted`).
