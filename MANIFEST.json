{
 "claims": [
  {
   "property": "C01",
   "status": "proved",
   "theorems": [
    "C01_lookups_see_private_copies",
    "C01_sharing_unobservable"
   ],
   "note": "Refinement of the heap model to deep-copy value semantics for every lookup-only program and every legal answer of shared_ptr::unique()."
  },
  {
   "property": "C02",
   "status": "partial",
   "theorems": [
    "C02_iteration_isolation_partial",
    "C02_iteration_isolation_refuted"
   ],
   "note": "False in general: Config::flatten writes through the shared inner map without copy-on-write (witness). Proved for programs that flatten/push only unshared or single-scope Configs."
  },
  {
   "property": "C03",
   "status": "proved",
   "theorems": [
    "C03_scoped_lookup",
    "C03_new_scope_is_a_copy"
   ],
   "note": "Lookup law for every variable after each scope operation in every reachable state; new_scope is observationally a copy."
  },
  {
   "property": "C04",
   "status": "proved",
   "theorems": [
    "C04_typed_access"
   ],
   "note": "In every reachable state."
  },
  {
   "property": "C05",
   "status": "partial",
   "theorems": [
    "C05_typed_swap_refuted",
    "C05_swap_any_partial"
   ],
   "note": "False: swap<T> leaves a default value in its argument (last line commented out). The untyped swapAny law is proved."
  },
  {
   "property": "C46",
   "status": "partial",
   "theorems": [
    "C46_inspection_changes_machine_refuted",
    "C46_inspection_keeps_lookups_partial"
   ],
   "note": "False: Machine.conf(i) flattens the shared map, so the listing of the element in Machine.conf() changes. Lookups are proved unaffected."
  },
  {
   "property": "C16",
   "status": "proved",
   "theorems": [
    "C16_lexer_terminates",
    "C16_longest_match",
    "C16_error_iff_not_tokenisable",
    "C16_blanks_between_tokens",
    "C16_boundary_after_every_lexeme"
   ],
   "note": "For every input string, against the regular expressions of glps.l; numeric value is the correctly rounded decimal."
  },
  {
   "property": "C06",
   "status": "partial",
   "theorems": [
    "C06_type_safety_partial",
    "C06_no_undefined_conversion_refuted",
    "C06_abort_releases_properties_refuted"
   ],
   "note": "No wrongly typed read, no index out of range, always ends: proved for every text. False in two ways shown by witnesses: NaN repetition count converted to unsigned, and the kv destructor frees memory from new on an abort."
  },
  {
   "property": "C07",
   "status": "proved",
   "theorems": [
    "C07_parse_means",
    "C07_lexical_error",
    "C07_syntax_error",
    "C07_statement_error"
   ],
   "note": "A Config is returned iff the text spells statements that all have a meaning under an independent semantics. For a parser without a limit on its stack; C86 says what the limit changes."
  },
  {
   "property": "C08",
   "status": "proved",
   "theorems": [
    "C08_expansion_order"
   ],
   "note": "Any nesting depth; flattening stated by an inductive relation on the source statements."
  },
  {
   "property": "C09",
   "status": "proved",
   "theorems": [
    "C09_elements_are_defined",
    "C09_undefined_member"
   ],
   "note": "For every file."
  },
  {
   "property": "C10",
   "status": "proved",
   "theorems": [
    "C10_duplicate_definition",
    "C10_preset_redefined",
    "C10_first_property_wins"
   ],
   "note": "For every file."
  },
  {
   "property": "C11",
   "status": "proved",
   "theorems": [
    "C11_use_selects",
    "C11_last_line_otherwise",
    "C11_no_line_is_error",
    "C11_unknown_use_is_error",
    "C11_empty_line_is_error"
   ],
   "note": "For every file."
  },
  {
   "property": "C12",
   "status": "proved",
   "theorems": [
    "C12_globals_visible",
    "C12_element_sees_top_level",
    "C12_elements_hidden"
   ],
   "note": "For every file, element and name. The name entry of the top level is hidden because every element has its own."
  },
  {
   "property": "C13",
   "status": "proved",
   "theorems": [
    "C13_setvar_is_assignment"
   ],
   "note": "At token level: the assignments are given as the tokens the scanner yields. Finite numbers only, other numbers have no spelling."
  },
  {
   "property": "C14",
   "status": "proved",
   "theorems": [
    "C14_at_most_one_candidate",
    "C14_resolution",
    "C14_binary_meaning",
    "C14_unary_meaning"
   ],
   "note": "For every name and argument list over the operator table of glps_ops.cpp."
  },
  {
   "property": "C15",
   "status": "partial",
   "theorems": [
    "C15_repetition_checked_partial",
    "C15_nan_count_refuted"
   ],
   "note": "All non-NaN binary64 values in both argument orders; for NaN the conversion to unsigned is undefined behaviour."
  },
  {
   "property": "C17",
   "status": "proved",
   "theorems": [
    "C17_parses_exactly_the_grammar",
    "C17_one_tree",
    "C17_precedence",
    "C17_minus_binds_tightest",
    "C17_every_tree_can_be_written"
   ],
   "note": "The parser accepts exactly the stated grammar and assigns one tree."
  },
  {
   "property": "C19",
   "status": "proved",
   "theorems": [
    "C19_beamline_order",
    "C19_buildable"
   ],
   "note": "For every registry and Config; construction succeeds exactly for the stated Configs."
  },
  {
   "property": "C20",
   "status": "partial",
   "theorems": [
    "C20_find_by_name_partial",
    "C20_find_by_type",
    "C20_all_elements_listed",
    "C20_lookup_after_rename_refuted"
   ],
   "note": "By type and listing: every history. By name: every history that keeps names; false after a reconfigure that changes the name (witness)."
  },
  {
   "property": "C21",
   "status": "partial",
   "theorems": [
    "C21_visits",
    "C21_visits_forward",
    "C21_visits_backward",
    "C21_ends_after_the_visits",
    "C21_most_negative_max_refuted",
    "C21_python_large_max_refuted"
   ],
   "note": "Proved for all int bounds but INT_MIN, where abs() is undefined (witness); from Python larger bounds are truncated to int (witness)."
  },
  {
   "property": "C22",
   "status": "proved",
   "theorems": [
    "C22_composes",
    "C22_throws"
   ],
   "note": "Every machine, state and split, arbitrary element behaviour apart from turning the state around."
  },
  {
   "property": "C23",
   "status": "proved",
   "theorems": [
    "C23_throw_changes_nothing",
    "C23_changes_one_element",
    "C23_type_is_fixed"
   ],
   "note": "Every machine, index, Config and failing constructor; assign() itself is assumed not to throw."
  },
  {
   "property": "C24",
   "status": "partial",
   "theorems": [
    "C24_reconfigured_like_new_partial",
    "C24_linear_without_source",
    "C24_linear_source_refuted",
    "C33_one_direction_partial"
   ],
   "note": "Every history, for element classes whose assign() replaces all that advance() depends on; instantiated for the Vector and TransferMatrix types, where it fails for the source (witness), and for MomentMatrix with every element kind, for histories of completed propagations in one direction."
  },
  {
   "property": "C25",
   "status": "proved",
   "theorems": [
    "C25_duplicates_rejected",
    "C25_holds_what_was_registered",
    "C25_order_irrelevant",
    "C19_buildable"
   ],
   "note": "Every registration history."
  },
  {
   "property": "C26",
   "status": "proved",
   "theorems": [
    "C26_observer_calls",
    "C26_python_observe",
    "C26_indices_are_slots",
    "C26_python_observe_out_of_range"
   ],
   "note": "Every machine, observer set and range."
  },
  {
   "property": "C27",
   "status": "proved",
   "theorems": [
    "C27_vector_is_matrix_applied",
    "C27_through_a_source_refuted"
   ],
   "note": "Every lattice, range and direction, exact arithmetic, sourceless ranges as stated; the restriction is necessary (witness)."
  },
  {
   "property": "C28",
   "status": "partial",
   "theorems": [
    "C28_linear_elements",
    "C28_linear_line",
    "C28_linear_determinants",
    "C28_moment_elements",
    "C28_moment_line",
    "C28_emittances_stay",
    "C28_electric_dipole_partial",
    "C28_electric_dipole_refuted",
    "C28_electric_dipole_phase_refuted"
   ],
   "note": "Vector and TransferMatrix types: all elements and every line, all real parameters. MomentMatrix: markers, monitors, drifts, magnetic and electric quadrupoles and solenoids, correctors, sector bends focusing in their plane, with misalignment, every charge state (all three planes together for sector bends only when made for the particle), and every line of them. Electric dipoles without asym_fac keep transverse areas; refuted with asym_fac, and for areas with phases and energies. Sextupoles and bends that defocus in their plane not covered; cavities are in C55."
  },
  {
   "property": "C29",
   "status": "partial",
   "theorems": [
    "C29_linear_elements",
    "C29_cut_vector",
    "C29_cut_matrix",
    "C29_moment_halves",
    "C29_moment_line",
    "C29_field_parts",
    "C29_field_line",
    "C29_electric_dipole_partial",
    "C29_electric_dipole_refuted"
   ],
   "note": "Vector and TransferMatrix types: matrices and whole lattices, exact arithmetic. MomentMatrix: drifts, magnetic and electric quadrupoles, solenoids and sector bends, cut anywhere, shifted and rolled but neither pitched nor yawed, alone and within a line. Electric dipoles without fields beyond the ends and with symmetric electrodes: position and phases for all, moments and matrices for charge states with mass, charge, energy and frequency of the reference particle; refuted for others. Quadrupoles, electric quadrupoles and solenoids given by field curves: cut between samples with use_range, lengths in proportion, alone and within a line; not cut within a sample."
  },
  {
   "property": "C48",
   "status": "proved",
   "theorems": [
    "C48_literals_correctly_rounded",
    "C48_literal_range",
    "C48_arithmetic_correctly_rounded"
   ],
   "note": "Every literal of every text; strtod itself is modelled as exact rational rounding, and proved nearest-even against an order-theoretic definition."
  },
  {
   "property": "C30",
   "status": "partial",
   "theorems": [
    "C30_stays_aligned",
    "C30_after_failures_partial",
    "C30_empty_stripper_refuted"
   ],
   "note": "Every lattice of all 14 element kinds, every history of reconfigurations and completed propagations in both directions. Propagations that throw may be part of the history as long as the number of charge states stays the same. False in release builds when a stripper lists no charge states (witness); failures with a changing number of charge states are not covered."
  },
  {
   "property": "C47",
   "status": "partial",
   "theorems": [
    "C47_built_iff_described",
    "C47_holds_the_config",
    "C47_wrong_length_refuted"
   ],
   "note": "Every Config: construction succeeds exactly for the stated Configs and yields what they say. Without IonChargeStates arrays of the wrong length are silently ignored (witness)."
  },
  {
   "property": "C31",
   "status": "partial",
   "theorems": [
    "C31_covariances_stay",
    "C31_with_strippers",
    "C31_stripper_refuted",
    "C31_envelope_covariance",
    "C31_with_strippers_and_cavities"
   ],
   "note": "Every lattice without strippers, every history and direction; with strippers for beams whose constant component does not vary, false otherwise (witness)."
  },
  {
   "property": "C34",
   "status": "proved",
   "theorems": [
    "C34_new_states_consistent",
    "C34_envelopes_consistent",
    "C34_between",
    "C31_envelope_covariance"
   ],
   "note": "Every state a machine shows or ends in, after every history of reconfigurations and completed propagations; exact arithmetic. The constant component of the envelope matrix is reported as zero."
  },
  {
   "property": "C50",
   "status": "proved",
   "theorems": [
    "C50_ions_kept",
    "C50_energies_kept",
    "C50_ions_kept_by_cavities"
   ],
   "note": "Every lattice, history and direction, whatever the cavities compute as long as they change energy and phase only, and with the cavity computations of rf_cavity.cpp."
  },
  {
   "property": "C49",
   "status": "partial",
   "theorems": [
    "C49_follows_the_motion",
    "C49_motion_is_unique",
    "C49_moment_follows_the_motion",
    "C49_course_is_unique",
    "C49_course_can_be_retraced",
    "C49_element_completes",
    "C49_electric_dipole_partial",
    "C49_electric_dipole_phase_refuted",
    "C49_electric_dipole_focusing_refuted",
    "C49_defocusing_bend_refuted"
   ],
   "note": "Vector and TransferMatrix types: every element with a fixed optics formula, all parameters; the solution is proved unique. MomentMatrix: markers, monitors, drifts, magnetic and electric quadrupoles and solenoids (uniform or given by curves), correctors, sector bends focusing in their plane and given matrices, with misalignment, per charge state, every history. Electric dipoles: proved for charge states like the reference particle with the focusing and pace of phases the code has; both are refuted to be those of the field. Bends that defocus in their plane: refuted. Sextupoles and cavities not covered."
  },
  {
   "property": "C51",
   "status": "proved",
   "theorems": [
    "C51_position_and_phases",
    "C51_along_a_line"
   ],
   "note": "Every guiding element, both directions, every history of reconfigurations and completed propagations in that direction; exact arithmetic."
  },
  {
   "property": "C33",
   "status": "partial",
   "theorems": [
    "C33_one_direction_partial",
    "C33_direction_refuted",
    "C33_failed_refuted"
   ],
   "note": "MomentMatrix, all 14 element kinds, every history of reconfigurations and completed propagations in one direction. False when the history went the other way, and after a propagation that threw (witnesses)."
  },
  {
   "property": "C37",
   "status": "partial",
   "theorems": [
    "C37_shows_the_same",
    "C37_independent",
    "C37_assigned",
    "C37_not_assigned",
    "C37_propagates_alike",
    "C37_linear_propagates_alike",
    "C37_once_more",
    "C37_next_elem_refuted",
    "C37_where_to_continue_refuted"
   ],
   "note": "All three kinds of states. Independence: any program that creates, clones, assigns, changes, propagates and deletes states, as an invariant on who owns which memory. Clones show the same attributes and propagate alike through any machine; for MomentMatrix also after the original has gone the same way. The claim as stated fails in one respect, which is refuted: next_elem (and the direction) of a clone are reset, so a clone taken on the way does not know where to continue."
  },
  {
   "property": "C38",
   "status": "partial",
   "theorems": [
    "C38_numbers_of_the_text",
    "C38_unequal_rows_refused",
    "C38_any_text_partial",
    "C38_last_word_dropped_refuted",
    "C38_blank_lines",
    "C38_crlf_blank_line_refuted",
    "C38_comment_line_refuted",
    "C38_reused_table_refuted",
    "C38_series_in_rows",
    "C38_series_incomplete_refuted"
   ],
   "note": "Every text made of blank lines, headers and rows of decimal numbers; for every other text what a successful read means. False for malformed numbers at the end of a line, blank lines ended by CRLF, later lines beginning with %, tables that are read into twice, incomplete series (witnesses)."
  },
  {
   "property": "C39",
   "status": "partial",
   "theorems": [
    "C39_cache_is_current_partial",
    "C39_relative_path_refused",
    "C39_same_second_refuted",
    "C39_older_file_refuted",
    "C39_changed_meanwhile_refuted"
   ],
   "note": "Every history of writing, removing, clearing and fetching in which files do not change during a fetch and later writes have later times. False otherwise (witnesses)."
  },
  {
   "property": "C40",
   "status": "partial",
   "theorems": [
    "C40_every_index_once",
    "C40_empty_dimension_refuted"
   ],
   "note": "All shapes without an empty dimension. False with one (witness)."
  },
  {
   "property": "C41",
   "status": "partial",
   "theorems": [
    "C41_read",
    "C41_write_then_read",
    "C41_number_write_then_read",
    "C41_mismatch_refused",
    "C41_other_names",
    "C41_failed_assignment_refuted",
    "C41_large_integer_refuted",
    "C41_float_to_integer_refuted",
    "C41_deletion_refuted"
   ],
   "note": "Every state type with at least one charge state, every attribute, every array (any strides, negative ones too) and every number that fits. False of assignments that raise because an integer is out of range (something is stored), of floats assigned to next_elem, and of del (witnesses)."
  },
  {
   "property": "C42",
   "status": "partial",
   "theorems": [
    "C42_each_recorded",
    "C42_packed_recorded",
    "C42_charge_states_refuted",
    "C42_fewer_charge_states_refuted"
   ],
   "note": "Vectors, matrices and moment states with one charge state: every attribute, every history. Moment states with any, changing, numbers of charge states: the attributes that lie side by side in memory. False of the per charge state attributes with more than one charge state (witnesses)."
  },
  {
   "property": "C45",
   "status": "proved",
   "theorems": [
    "C45_dense",
    "C45_what_they_are",
    "C45_stays",
    "C45_python_names"
   ],
   "note": "Every state type, every number of charge states but zero, every index."
  },
  {
   "property": "C32",
   "status": "partial",
   "theorems": [
    "C32_forward_then_backward",
    "C32_with_cavities",
    "C32_both_ways_complete",
    "C32_after_backward_refuted"
   ],
   "note": "MomentMatrix, exact arithmetic: every range of markers, monitors, drifts, magnetic and electric quadrupoles, solenoids, sector and electrostatic bends, correctors and matrices, misaligned or not, and of RF cavities without pitch, yaw and emittance growth; every state of moving particles; every history of reconfigurations and completed forward propagations. Completion is proved from the settings. False after a backward propagation (witness). The field computations of the cavities are not modelled."
  },
  {
   "property": "C35",
   "status": "partial",
   "theorems": [
    "C35_placed_well",
    "C35_only_the_frame_matters",
    "C35_shifted_with_the_beam"
   ],
   "note": "MomentMatrix, exact arithmetic, every forward history. Well placed: quadrupoles (magnetic, electric), solenoids, correctors and sector magnets act as fields and edges alone. Frame: of two elements differing in their placing only (these kinds but correctors, and electric dipoles and sextupoles), beams looking alike at the entrance look alike at the exit; moving element and beam together moves what comes out. Missing: cavities and strippers; correctors in the statements on frames, as these kick before the change of frame."
  },
  {
   "property": "C36",
   "status": "proved",
   "theorems": [
    "C36_what_a_stripper_leaves",
    "C36_completes",
    "C36_backward_refused",
    "C36_inconsistent_refused"
   ],
   "note": "MomentMatrix, exact arithmetic: all settings of a stripper (given and computed weights), every aligned state, every history of reconfigurations and completed propagations in both directions. The full outgoing state is described: charges, weights (Baron's formula if computed), energies, phases, common centroid, pooled and scattered covariance. Completion is proved from the settings and a beam whose momenta vary; otherwise the program divides by zero."
  },
  {
   "property": "C43",
   "status": "proved",
   "theorems": [
    "C43_power",
    "C43_fit_is_the_polynomial",
    "C43_series_is_the_polynomial",
    "C43_negative_exponent_refuted"
   ],
   "note": "Exact arithmetic, every base, every exponent an int can be but negative ones, with which the program does not end (proved for every number of rounds; no caller passes one); coefficient lists of any length."
  },
  {
   "property": "C44",
   "status": "proved",
   "theorems": [
    "C44_what_is_tracked",
    "C44_not_below_rest",
    "C44_stays_above_rest",
    "C44_stopped_particle_refuted"
   ],
   "note": "Exact arithmetic: every field table of two rows or more, every phase, charge, scale and incoming energy; and every state of every propagation, both directions, after every history. A particle that is stopped before the last row comes out as NaN, not as a number (witness)."
  },
  {
   "property": "C52",
   "status": "proved",
   "theorems": [
    "C52_gain_is_bounded",
    "C52_fast_enough"
   ],
   "note": "Exact arithmetic, every table, phase, charge, scale and energy."
  },
  {
   "property": "C55",
   "status": "proved",
   "theorems": [
    "C55_shape_of_the_matrix"
   ],
   "note": "Exact arithmetic, every cavity of every type, all data files, all particles for which the computation ends with numbers."
  },
  {
   "property": "C56",
   "status": "partial",
   "theorems": [
    "C56_proper_files_build",
    "C56_proper_files_propagate",
    "C56_narrow_tables_refused",
    "C56_short_attr_refuted",
    "C56_odd_field_refuted",
    "C56_unparsable_refuted",
    "C56_no_gap_refuted",
    "C56_short_limit_refuted"
   ],
   "note": "Proved if files are as expected (conditions on lengths in Cavity_Spec), missing files included; false otherwise (five witnesses). How the lines of the thin lens files are read is C66."
  },
  {
   "property": "C53",
   "status": "proved",
   "theorems": [
    "C53_full_turns",
    "C53_same_computations"
   ],
   "note": "Exact arithmetic: every cavity of every type, all data files, all beams and histories of forward propagation; and each computation for every particle, failures included."
  },
  {
   "property": "C54",
   "status": "proved",
   "theorems": [
    "C54_no_field"
   ],
   "note": "Exact arithmetic: every cavity of every type, all data files as expected, all moving beams, every history of forward propagation. The matrix is stated for cavities that are not misplaced (misplaced ones: C58)."
  },
  {
   "property": "C57",
   "status": "proved",
   "theorems": [
    "C57_mirrored_gaps",
    "C57_fits_exist"
   ],
   "note": "Exact arithmetic, all built-in fits with the coefficients of the source, every field table."
  },
  {
   "property": "C58",
   "status": "proved",
   "theorems": [
    "C58_what_a_cavity_does"
   ],
   "note": "Exact arithmetic; whatever the field computations give (instantiated with those of rf_cavity.cpp in the Example); forward propagation."
  },
  {
   "property": "C18",
   "status": "partial",
   "theorems": [
    "C18_number_text",
    "C18_number_read",
    "C18_round_trip_partial",
    "C18_parsed_partial",
    "C18_exact_partial",
    "C18_digits_refuted",
    "C18_infinity_refuted",
    "C18_clash_refuted",
    "C18_twins_refuted",
    "C18_quote_refuted",
    "C18_nested_refuted"
   ],
   "note": "Proved for every lattice with writable names, finite numbers and plain strings, up to rounding to six digits (exactly if six digits suffice). False in general: six witnesses, three of them lattices that were themselves read from a text."
  },
  {
   "property": "C59",
   "status": "partial",
   "theorems": [
    "C59_entries_partial",
    "C59_elements_partial",
    "C59_lattice_partial",
    "C59_later_variables_refuted",
    "C59_null_characters_refuted",
    "C59_depth_refuted",
    "C59_unreadable_refuted"
   ],
   "note": "Proved: the same entries at every level (three levels, no null characters); elements see their own entries and the variables whose names come before 'elements' in byte order. False: they see no later variables (witness: a file that builds a machine while its parsed form raises); strings with null characters, four levels, strings that are no UTF-8."
  },
  {
   "property": "C60",
   "status": "proved",
   "theorems": [
    "C60_last_value",
    "C60_nested",
    "C60_accepted",
    "C60_shown_again",
    "C60_printed"
   ],
   "note": "Every list of entries, every nesting; str as code points with UTF-8 as in RFC 3629, cut at a null character as the program does."
  },
  {
   "property": "C61",
   "status": "partial",
   "theorems": [
    "C61_extra_partial",
    "C61_extra_ignored",
    "C61_extra_refuted",
    "C61_no_crash_partial",
    "C61_wrong_arguments_crash",
    "C61_parse_raises",
    "C61_never_crashes_refuted"
   ],
   "note": "Proved: extra becomes the presets of the parser for lattice texts; no crash for arguments of the right kind if the parser leaves the text in a defined way. False: extra is ignored with dicts and lists; a missing config, an extra of another kind or a read() without buffer dereferences a null pointer."
  },
  {
   "property": "C62",
   "status": "partial",
   "theorems": [
    "C62_reconfigured",
    "C62_refused",
    "C62_conf_back_partial",
    "C62_config_lists_refuted",
    "C62_allocated",
    "C62_allocated_default",
    "C62_conf_shows",
    "C62_conf_raises"
   ],
   "note": "Every machine, every element class, every dict. conf(i) can be given back if no list of Configs is visible from element i (raises otherwise, witness)."
  },
  {
   "property": "C63",
   "status": "proved",
   "theorems": [
    "C63_rays_through_the_pieces",
    "C63_phase_and_energy",
    "C63_damping"
   ],
   "note": "Exact arithmetic: every Generic cavity, every data file with tables of lengths an int holds, every particle for which the computation ends with numbers. The longitudinal derivatives are those with the transit time factors of the particle itself, as the program takes them; the way of the particle is that through the pieces, not the integration along the field table (C52)."
  },
  {
   "property": "C64",
   "status": "proved",
   "theorems": [
    "C64_two_gaps"
   ],
   "note": "Exact arithmetic, every cavity of the four built-in types, all data files, all particles for which the computation ends with numbers. The transit time factors of gaps and multipoles are those of the model (fits and tables; see C57). As in the program, velocity and energy for the kicks behind a magnetic quadrupole are means over its half until the next gap."
  },
  {
   "property": "C65",
   "status": "partial",
   "theorems": [
    "C65_growth_partial",
    "C65_emittance_partial",
    "C65_longitudinal_refuted",
    "C65_spread_refuted"
   ],
   "note": "Exact arithmetic, every cavity not shifted or tilted, every beam that gets through. The added mean squares of the angles are those of the integral over a parabolic density of phases and never negative; transverse emittances never shrink. False: the longitudinal factor can be below one, and the rms of the phases is taken for the half width of the density, so that too little is added."
  },
  {
   "property": "C66",
   "status": "partial",
   "theorems": [
    "C66_pieces_of_the_text",
    "C66_words_refused",
    "C66_any_text_partial",
    "C66_cavity_from_text",
    "C66_generic_file",
    "C66_broken_files_refused",
    "C66_missing_number_unset",
    "C66_missing_number_refuted",
    "C66_half_a_number_refuted",
    "C66_carriage_return_refuted",
    "C66_settings",
    "C66_documented_types_refuted"
   ],
   "note": "Every text of a thin lens file, every cavity. False: a line that ends before its last number, or within it, is accepted and leaves a number without value; with carriage returns every empty line becomes a piece; the type HFocus of the documentation is not known. Generic data files are taken as what the lattice parser made of them (C01-C10)."
  },
  {
   "property": "C67",
   "status": "partial",
   "theorems": [
    "C67_malformed_refused",
    "C67_as_if_written",
    "C67_redefinition_refused_partial",
    "C67_overwritten_refuted"
   ],
   "note": "Every definition, lattice text, machine and set of options; boost::lexical_cast<double> is an oracle. False: a definition of the lattice file does not overwrite one of the command line but is refused (the parser says the name is defined already), or parsing meets undefined behaviour before it (C06)."
  },
  {
   "property": "C68",
   "status": "partial",
   "theorems": [
    "C68_shown",
    "C68_twice",
    "C68_bad_limit",
    "C68_bad_format",
    "C68_one_meaning",
    "C68_no_file",
    "C68_known_arrays",
    "C68_timeit_refuted",
    "C68_no_file_refuted",
    "C68_smallest_limit_refuted",
    "C68_unknown_array_refuted"
   ],
   "note": "Every machine of elements that do not redirect the state, every selection, limit and format. False: with --timeit everything is shown twice, the second time for a state that has passed already; hdf5 without a file shows nothing without an error; the least int is accepted and then undefined; utest shows the first array for a name that there is not. The layout of the text is not modelled."
  },
  {
   "property": "C69",
   "status": "proved",
   "theorems": [
    "C69_line_is_its_elements",
    "C69_only_the_entries_matter",
    "C69_line_completes"
   ],
   "note": "Forward; every history of reconfigurations and completed forward propagations. The first two for all elements but cavities, the third for guiding elements with all their settings."
  },
  {
   "property": "C70",
   "status": "partial",
   "theorems": [
    "C70_opens_the_group",
    "C70_only_what_is_named",
    "C70_refused",
    "C70_hangs",
    "C70_file_alone_refuted",
    "C70_absolute_refuted"
   ],
   "note": "Every file system, text and tree of groups. False: a file without group does not open its root, and an absolute name without group never returns."
  },
  {
   "property": "C71",
   "status": "partial",
   "theorems": [
    "C71_loaded",
    "C71_refused",
    "C71_program_partial",
    "C71_program_catches",
    "C71_program_refuted",
    "C71_no_rows_refuted"
   ],
   "note": "Every dataset of numbers. False: no rows; h5loadertest with a dataset of the root group. Missing: data that are not numbers."
  },
  {
   "property": "C72",
   "status": "partial",
   "theorems": [
    "C72_written_then_loaded_partial",
    "C72_group_replaced",
    "C72_refused",
    "C72_matrices_refuted",
    "C72_root_refuted",
    "C72_absolute_refuted",
    "C72_again_refuted",
    "C72_reopened_refuted",
    "C72_directory_refuted"
   ],
   "note": "Every file, group and list of states (VectorState, MatrixState, one charge state): numbers and vectors. False: matrices, locations without group, absolute names, reopened writers, missing directories."
  },
  {
   "property": "C73",
   "status": "partial",
   "theorems": [
    "C73_value_kept_partial",
    "C73_short_refuted"
   ],
   "note": "Every text whose memory is at least 16 bytes. False: shorter ones are read beyond their end."
  },
  {
   "property": "C74",
   "status": "partial",
   "theorems": [
    "C74_named_types",
    "C74_first_gap",
    "C74_by_peaks",
    "C74_phase_as_given",
    "C74_seen_by_the_reference",
    "C74_arrival_does_not_matter",
    "C74_documented_fit_refuted",
    "C74_documented_peaks_refuted"
   ],
   "note": "Exact arithmetic, every cavity, data file and reference particle that gets through; pow, log and exp are those of the reals. False: the formulas of the documentation, which adds the third number of the fit and has growing exponentials."
  },
  {
   "property": "C75",
   "status": "partial",
   "theorems": [
    "C75_tables_that_do",
    "C75_from_the_table",
    "C75_slopes",
    "C75_no_more_than_the_field_partial",
    "C75_uneven_refuted",
    "C75_gap_fits",
    "C75_gap_tables",
    "C75_multipole_fits",
    "C75_no_dipole_fits",
    "C75_multipole_tables"
   ],
   "note": "Exact arithmetic, every table; the 24 fits of multipoles and the 8 of gaps are bounded over their whole ranges by exact rational arithmetic (a checker proved sound). False: with rows at different distances the odd part can exceed the field, since it takes the distance of the rows where everything else takes the mean distance. The fits for gap 0 are never used."
  },
  {
   "property": "C76",
   "status": "proved",
   "theorems": [
    "C76_one_at_a_time",
    "C76_always",
    "C76_in_order",
    "C76_comes_to_rest",
    "C76_at_rest",
    "C76_no_more_than_asked",
    "C76_the_end",
    "C76_undefined"
   ],
   "note": "Every number of threads, every list of records, every interleaving of small steps, any Machine. epicsMutex is a lock, epicsEvent a binary semaphore."
  },
  {
   "property": "C77",
   "status": "partial",
   "theorems": [
    "C77_settings",
    "C77_indices",
    "C77_readings",
    "C77_readings_accepted",
    "C77_readings_refused_partial",
    "C77_leaves_no_trace_refuted",
    "C77_orbits",
    "C77_orbits_accepted",
    "C77_orbits_refused_partial",
    "C77_orbit_by_name_refuted",
    "C77_three_dimensions",
    "C77_prepare"
   ],
   "note": "Every text, any simulations. False: a refused record can leave an observer behind; the link of an orbit names a type, not an element."
  },
  {
   "property": "C78",
   "status": "partial",
   "theorems": [
    "C78_write",
    "C78_rest",
    "C78_accepted",
    "C78_last",
    "C78_scaled_partial",
    "C78_scaled_whole",
    "C78_scaled_refuted"
   ],
   "note": "Every element, parameter, number and history, any Machine. False: a record with ASLO, AOFF or a linear conversion need not read back what was written to it, for rounding."
  },
  {
   "property": "C79",
   "status": "partial",
   "theorems": [
    "C79_run",
    "C79_alarm",
    "C79_reading",
    "C79_shown",
    "C79_orbit",
    "C79_numbers",
    "C79_defined",
    "C79_current_refuted",
    "C79_message_refuted"
   ],
   "note": "Every lattice, history and interleaving; element types whose behaviour depends on their Config only and which leave next_elem alone. False: readings are without alarm after a setting was changed, though nothing was simulated since; the message of a failure outlives later successes."
  },
  {
   "property": "C80",
   "status": "partial",
   "theorems": [
    "C80_complete",
    "C80_resolves",
    "C80_names",
    "C80_starts_partial",
    "C80_waveforms",
    "C80_manglers_refuted",
    "C80_other_simulations_refuted",
    "C80_without_markers_refuted",
    "C80_field_tables_refuted"
   ],
   "note": "Every lattice; the templates that are shipped. Partial: all records start in MomentMatrix simulations with a marker whose elements have the parameters of the templates. False otherwise; with another mangler rows can name elements that there are not."
  },
  {
   "property": "C81",
   "status": "partial",
   "theorems": [
    "C81_passed_on",
    "C81_lines",
    "C81_python_partial",
    "C81_python_refuted",
    "C81_all_but_debug_refuted",
    "C81_levels_partial",
    "C81_negative_levels_refuted",
    "C81_verbosity_partial",
    "C81_verbosity_defined_partial",
    "C81_verbosity_refuted",
    "C81_overflow_refuted"
   ],
   "note": "Every sequence of messages, loggers and levels. False: the Python logger loses the last character of each text; after import flame messages of level INFO are not passed on; a negative level turns messages off; --verbose 3 is --verbose 2, and large numbers are undefined."
  },
  {
   "property": "C82",
   "status": "partial",
   "theorems": [
    "C82_given",
    "C82_shows",
    "C82_rebuilt",
    "C82_put_back_partial",
    "C82_null_characters_refuted",
    "C82_recursively_refuted",
    "C82_parsed_refuted"
   ],
   "note": "Every Machine whose names are without null characters. False: names that differ after a null character collapse; lists within elements stay lists of pairs, though the helper says recursively; GLPSParser.parse() does not return an OrderedDict, as its documentation says. Putting conf(i) back needs an element that sees no lists of Configs (C62_config_lists_refuted)."
  },
  {
   "property": "C83",
   "status": "partial",
   "theorems": [
    "C83_marker",
    "C83_line",
    "C83_untouched",
    "C83_momenta",
    "C83_linear",
    "C83_at_rest_refuted",
    "C83_infinite_refuted"
   ],
   "note": "In double arithmetic, each operation rounded by itself: all numbers shown are the same but for the sign of zero. Elements behind the marker may have any matrix that does not depend on phases (cavities are left out). The state at the marker must be finite. False otherwise: for a beam at rest the wave number is infinite and the phase becomes NaN at a marker; an infinite component makes the others NaN."
  },
  {
   "property": "C84",
   "status": "partial",
   "theorems": [
    "C84_root",
    "C84_shown_symmetric",
    "C84_planes",
    "C84_variance_near",
    "C84_symmetric_near",
    "C84_variance_refuted",
    "C84_symmetric_refuted"
   ],
   "note": "In double arithmetic. The envelope adds no negative variance and no asymmetry, and no rounding correlates planes an element keeps apart (cavities, bends' own advance and strippers left out). False: the product T M T' of an exact covariance matrix can have a negative variance, so that the rms is NaN, and need not be symmetric; both in a drift. By how much is bounded by C84_variance_near and C84_symmetric_near."
  },
  {
   "property": "C85",
   "status": "proved",
   "theorems": [
    "C85_centroid",
    "C85_covariance",
    "C85_vector_line",
    "C85_position",
    "C85_sizes"
   ],
   "note": "For each element of a MomentMatrix line given the matrix it applied, for lines of any length of Vector simulations, and for positions. The errors of the matrices themselves (sines, cosines) are not covered, nor are cavities, bends and strippers."
  },
  {
   "property": "C86",
   "status": "partial",
   "theorems": [
    "C86_within",
    "C86_agrees",
    "C86_means",
    "C86_too_deep",
    "C86_statements",
    "C86_lists",
    "C86_any_length_refuted"
   ],
   "note": "Refuted as stated: the generated parser holds at most 10000 states and the grammar is right-recursive, so texts of 9998 statements, beamlines of 4998 members, vectors of 4999 numbers or elements of 4998 properties are refused. Proved: what is refused, that nothing is misread, and that n statements of at most k tokens with n + k <= 9996 are read as without a limit. The number 10000 is bison's default YYMAXDEPTH, which glps.y does not change."
  },
  {
   "property": "C87",
   "status": "partial",
   "theorems": [
    "C87_reported",
    "C87_lattice",
    "C87_in_text",
    "C87_cause",
    "C87_culprit_refuted"
   ],
   "note": "Refuted as stated: an unknown name is reported for the line of the token behind it. Proved for every text: there is a message with a line number exactly when the text is refused by the parser, the line exists, and the message depends on nothing below that line. Messages of the conversion to a Config (no beamline, empty beamline) carry no line and are not covered."
  },
  {
   "property": "C88",
   "status": "partial",
   "theorems": [
    "C88_safe",
    "C88_freed",
    "C88_leak",
    "C88_python_safe",
    "C88_python_freed",
    "C88_tool_freed",
    "C88_tool_selected",
    "C88_owner_frees_refuted",
    "C88_shared_refuted",
    "C88_failed_refuted",
    "C88_uninitialised_refuted",
    "C88_twice_refuted"
   ],
   "note": "Refuted as stated: elements delete their observers though base.h asks that observers outlive them, a failed construction leaves elements in memory, and a Python Machine without successful __init__ crashes. Proved for every program which leaves an attached observer to its element, for every sequence of Python calls on initialised Machines, and for the command line tool. Memory inside of elements, states and Configs is not modelled."
  },
  {
   "property": "C89",
   "status": "partial",
   "theorems": [
    "C89_machine",
    "C89_reconfigure",
    "C89_silent",
    "C89_trace",
    "C89_trace_format",
    "C89_txt",
    "C89_tool",
    "C89_formats",
    "C89_levels",
    "C89_particles",
    "C89_sign",
    "C89_digits",
    "C89_python",
    "C89_lattice",
    "C89_lattice_python",
    "C89_lattice_faithful",
    "C89_forged_refuted",
    "C89_format_refuted",
    "C89_python_level_refuted",
    "C89_vector_refuted"
   ],
   "note": "Refuted as stated: states of Vector simulations print nothing, txt output on the same stream changes the format of the trace, Python levels from 2^31 on show less, and a name with a line end makes up elements. The rest is proved. Streams in formats other than the default and the scientific one, --timeit and write failures are not modelled."
  },
  {
   "property": "C90",
   "status": "partial",
   "theorems": [
    "C90_agree",
    "C90_safe",
    "C90_stale",
    "C90_freed",
    "C90_again",
    "C90_anytime_refuted",
    "C90_refused_refuted"
   ],
   "note": "Refuted as stated: machines keep raw pointers to builders that registeryCleanup() deletes, so reconfiguring a machine made before it reads freed memory (C90_stale says exactly when), and a builder whose registration throws is never freed. All else is proved for every order of calls. One thread only."
  },
  {
   "property": "C91",
   "status": "partial",
   "theorems": [
    "C91_constructs",
    "C91_result",
    "C91_main",
    "C91_source",
    "C91_no_drift",
    "C91_motion_refuted",
    "C91_rest_refuted",
    "C91_cut_refuted",
    "C91_backward_refuted",
    "C91_shown_refuted"
   ],
   "note": "Proved: which lattices are accepted, that every entry acts once and in order also after reconfigurations, that a source resets all, what the program computes. Refuted: place and velocity do not follow Newton's law (velocity moves nothing, acceleration moves twice too far), halves of an element do not act as the whole, going backwards does not lead back, and no state is printed."
  },
  {
   "property": "C92",
   "status": "partial",
   "theorems": [
    "C92_atomic",
    "C92_alone",
    "C92_finishes",
    "C92_deadlock",
    "C92_anytime_refuted",
    "C92_nested_refuted",
    "C92_replaced_refuted"
   ],
   "note": "Proved for all interleavings: if no constructor of an element calls the framework (those shipped do not), the static calls answer as if made one after another, and all of them return. Proved as well: a constructor that does call it blocks its thread and all others for ever, which refutes 'at any time' for user-defined elements that warn or hold a machine. Refuted: a replaced logger gets no more messages."
  },
  {
   "property": "C93",
   "status": "partial",
   "theorems": [
    "C93_curves_current",
    "C93_cavity_current",
    "C93_same_second_refuted",
    "C93_put_back_refuted",
    "C93_bad_file_refuted",
    "C93_warm",
    "C93_single",
    "C93_threads_refuted"
   ],
   "note": "Proved for every history of files and any parser: what is used is what the file says now, if files do not change while they are looked at and different texts have different times; no race within one thread, nor between threads whose files were all read before. Refuted: files rewritten within the second, files put back with their old time, bad data files of cavities (crash), two threads of which one needs a new file (data race)."
  }
 ]
}