{"id": "C01", "title": "Config copies are independent for lookups", "statement": "After any history of constructing, copying, assigning, swapping, writing, scoping and destroying Config objects (including Configs nested inside Config vectors), every lookup through a Config returns exactly what it would return if each copy were a full private deep copy: a write through one Config is never visible to a lookup through another.", "quantifier": "all finite histories of Config operations over any number of live Config variables, all names, all values, all legal answers of the shared-pointer uniqueness test", "why_tests_cant": "Sharing bugs appear only for particular aliasing histories (copy, scope, flatten, then write); the number of histories is unbounded.", "anchors": ["src/config.cpp:Config::_cow", "src/config.cpp:Config::setAny", "src/config.cpp:Config::swapAny", "src/config.cpp:Config::new_scope", "src/config.cpp:Config::push_scope", "src/config.cpp:Config::flatten", "src/flame/config.h:Config"]}
{"id": "C02", "title": "Config copies are independent for iteration and printing", "statement": "Iterating (begin()/end()) or printing one Config is never affected by an operation performed on another Config it was copied from or to.", "quantifier": "all finite histories of Config operations", "why_tests_cant": "Only a history in which a copy with an outer scope is flattened exposes the sharing; example tests do not enumerate histories.", "anchors": ["src/config.cpp:Config::flatten", "src/config.cpp:Config::push_scope", "src/config.cpp:Config::show", "src/flame/config.h:Config::begin"]}
{"id": "C03", "title": "Scoped lookup: inner values shadow outer ones, nothing else changes", "statement": "A new inner scope sees exactly the names its parent could see when the scope was created; values set in the inner scope shadow outer ones for that scope only, later changes to the parent are not seen, and push_scope and flatten never change the result of any lookup.", "quantifier": "all Configs, all names, all later writes to either side", "why_tests_cant": "The claim is about every name and every later modification of either Config.", "anchors": ["src/config.cpp:Config::new_scope", "src/config.cpp:Config::push_scope", "src/config.cpp:Config::flatten", "src/config.cpp:Config::getAny"]}
{"id": "C04", "title": "Typed access never converts and never modifies", "statement": "For every name and requested type: get<T>(name) succeeds exactly when the name is visible with exactly type T and returns that value; get<T>(name,default) returns that value or else the default and never throws; tryGet<T> returns true in exactly the same cases and leaves its output argument untouched otherwise; none of them alters the Config.", "quantifier": "all Configs, names, requested types and defaults", "why_tests_cant": "Requires agreement of three access paths over every combination of presence, scope and type.", "anchors": ["src/flame/config.h:Config::get", "src/flame/config.h:Config::tryGet", "src/config.cpp:Config::getAny", "src/config.cpp:Config::tryGetAny"]}
{"id": "C05", "title": "Typed swap exchanges the stored value with the argument", "statement": "swap<T>(name, v) stores the old v under name and leaves the previously stored value in v, as the documented example asserts.", "quantifier": "all Configs, names and values", "why_tests_cant": "The documented contract covers every stored value, including names that are not present.", "anchors": ["src/flame/config.h:Config::swap", "src/config.cpp:Config::swapAny"]}
{"id": "C06", "title": "Lattice files are type safe", "statement": "Parsing any byte sequence ends in a returned Config or a reported error: no expression evaluation, assignment, element or line construction ever reads a value at a type it does not have.", "quantifier": "all byte sequences given to the parser", "why_tests_cant": "Every combination of operators, variables, vectors, elements and lines would have to be tried.", "anchors": ["src/glps_parser.cpp", "src/glps_ops.cpp", "src/glps.y", "src/config.cpp:GLPSParser"]}
{"id": "C07", "title": "A lattice file with any error yields no Config", "statement": "If any lexical, syntax or semantic error is detected at any point while parsing a file, the parse throws; a Config is returned only when every statement was accepted.", "quantifier": "all byte sequences and all positions of the error", "why_tests_cant": "Errors may occur in any statement and be followed by any text.", "anchors": ["src/glps_parser.cpp:glps_error", "src/glps_parser.cpp:parse_context::parse", "src/config.cpp:GLPSParser::parse_byte", "src/glps.y"]}
{"id": "C08", "title": "Beamline expansion preserves source order", "statement": "The elements of the returned Config are exactly the flattening of the selected line in source order: a list concatenates its members, N*line repeats it N times, -line reverses it, nested lines are expanded in place.", "quantifier": "all line definitions of any nesting depth and length", "why_tests_cant": "Lists are built back to front and reversed; only an inductive argument covers every nesting.", "anchors": ["src/glps_parser.cpp:glps_append_expr", "src/glps_parser.cpp:glps_add_line", "src/glps_ops.cpp:unary_bl_negate", "src/glps_ops.cpp:binary_bl_mult", "src/config.cpp:GLPSParser::Pvt::fill_context"]}
{"id": "C09", "title": "Every element of the returned lattice was defined", "statement": "Each entry of the returned element list carries the name and type of an element definition in the file, with all properties of that definition; no entry is invented and an undefined name anywhere in a line is an error.", "quantifier": "all lattice files that parse successfully", "why_tests_cant": "Ranges over all files; an index bug would silently insert a default element.", "anchors": ["src/glps_parser.cpp:glps_add_value", "src/glps_parser.cpp:glps_add_element", "src/config.cpp:GLPSParser::Pvt::fill_context"]}
{"id": "C10", "title": "Duplicate definitions", "statement": "Defining the same variable, the same element or the same line twice is an error; a property given twice inside one element definition takes the value written first.", "quantifier": "all lattice files", "why_tests_cant": "Must hold wherever the second definition occurs and whatever lies in between.", "anchors": ["src/glps_parser.cpp:glps_assign", "src/glps_parser.cpp:glps_add_element", "src/glps_parser.cpp:glps_add_line", "src/glps_parser.cpp:glps_append_kv"]}
{"id": "C11", "title": "Line selection", "statement": "The element list is that of the line named by the (first/only) USE statement, or of the last line defined when there is no USE; USE of an unknown line, a file without lines and an empty selected line are errors.", "quantifier": "all lattice files", "why_tests_cant": "Ranges over all sets of lines and USE statements.", "anchors": ["src/config.cpp:GLPSParser::Pvt::fill_context"]}
{"id": "C12", "title": "Global variables are visible from every element", "statement": "Every global variable of the file, wherever it is defined, is visible by lookup from every element Config unless the element defines the same property, and the top-level name and elements entries are not visible from elements.", "quantifier": "all lattice files, all elements, all names", "why_tests_cant": "Relates every element to every variable irrespective of definition order.", "anchors": ["src/config.cpp:GLPSParser::Pvt::fill_context", "src/config.cpp:Config::new_scope"]}
{"id": "C13", "title": "setVar is equivalent to a leading assignment", "statement": "Parsing a file with variables preset through setVar gives the same result as parsing the same file with those assignments prepended, for numbers, strings and vectors.", "quantifier": "all preset variable sets and all files", "why_tests_cant": "Equality of two runs over all inputs.", "anchors": ["src/config.cpp:GLPSParser::Pvt::fill_vars", "src/config.cpp:GLPSParser::setVar", "src/glps_parser.cpp:glps_assign"]}
{"id": "C14", "title": "Operator resolution is unambiguous", "statement": "An operator or function applied to arguments is accepted exactly when one entry with the same name, arity and argument types exists; there is never more than one candidate and any other use is an error.", "quantifier": "all operator names and argument lists", "why_tests_cant": "All names and all type tuples of any length.", "anchors": ["src/glps_parser.cpp:glps_add_op", "src/glps_ops.cpp:parse_context::parse_context"]}
{"id": "C15", "title": "Line repetition count is checked", "statement": "N*line with any number N either yields the line repeated floor(N) times or is reported as an error; the behaviour is always defined.", "quantifier": "all binary64 values of N including NaN and infinities, all lines", "why_tests_cant": "All doubles, including those produced by earlier arithmetic.", "anchors": ["src/glps_ops.cpp:binary_bl_mult"]}
{"id": "C16", "title": "Lexer: longest match, blanks and comments do not matter", "statement": "Tokenisation always terminates, consumes every input byte exactly once, takes the longest match at each point, and inserting blanks, newlines or comment lines between tokens does not change the token sequence.", "quantifier": "all byte sequences", "why_tests_cant": "All inputs, all insertion points.", "anchors": ["src/glps.l"]}
{"id": "C17", "title": "Expression grammar: precedence and associativity", "statement": "The parser assigns to every accepted token sequence exactly one tree, with * and / binding tighter than + and -, all four left associative and unary minus tightest; every tree can be written down and is parsed back to itself.", "quantifier": "all expressions of any depth", "why_tests_cant": "Unbounded nesting.", "anchors": ["src/glps.y"]}
{"id": "C18", "title": "Printing then parsing reproduces the lattice", "statement": "GLPSPrint of a lattice Config, parsed again, gives a Config with the same elements in the same order with the same names, types and properties.", "quantifier": "all lattice Configs", "why_tests_cant": "All names, strings, numbers and line lengths.", "anchors": ["src/config.cpp:GLPSPrint", "src/config.cpp:GLPSParser::parse_byte"]}
{"id": "C19", "title": "Machine keeps beamline order", "statement": "A Machine built from a Config has one element per entry, at the same index and in the same order, and each element reports its own index, name and type as given in the Config (unless a required entry is missing, when construction fails).", "quantifier": "all Configs", "why_tests_cant": "All lattice lengths and contents.", "anchors": ["src/base.cpp:Machine::Machine", "src/flame/base.h:Machine"]}
{"id": "C20", "title": "find() and range lookups agree with the beamline", "statement": "find(name,nth) returns the nth element with that name counted along the beamline or nothing; equal_range and equal_range_type list exactly the elements with that name or type, in beamline order. This remains so after any sequence of reconfigure calls.", "quantifier": "all machines, names, types, nth, and all reconfigure histories", "why_tests_cant": "All name multisets and all histories.", "anchors": ["src/flame/base.h:Machine::find", "src/flame/base.h:Machine::equal_range", "src/flame/base.h:Machine::LookupKey", "src/base.cpp:Machine::reconfigure"]}
{"id": "C21", "title": "propagate visits exactly the requested elements", "statement": "propagate(S,start,max) passes S through elements start, start+1, \u2026 (or start, start-1, \u2026 when max is negative) until |max| elements have been visited or the end (beginning) of the machine is reached, each exactly once and in that order; with start past the end nothing happens.", "quantifier": "all machine lengths, start values and max values", "why_tests_cant": "All integers including extremes; unsigned wrap at index 0.", "anchors": ["src/base.cpp:Machine::propagate"]}
{"id": "C22", "title": "propagate composes", "statement": "Propagating a elements and then continuing b elements from where the state stands gives the same final state as propagating a+b elements at once, whatever the elements do to the state (as long as they do not redirect it).", "quantifier": "all machines, all states, all splits", "why_tests_cant": "All splits of all lengths with arbitrary element behaviour.", "anchors": ["src/base.cpp:Machine::propagate"]}
{"id": "C23", "title": "reconfigure is all or nothing and local", "statement": "reconfigure(i,c) either throws, leaving every element, index and lookup of the machine as before, or replaces the behaviour of element i only; index, order and all other elements are unchanged, and the type cannot change.", "quantifier": "all machines, indices and Configs, all failure points", "why_tests_cant": "Every failure point inside element construction.", "anchors": ["src/base.cpp:Machine::reconfigure", "src/flame/base.h:ElementVoid::rebuild", "src/flame/base.h:Machine::element_builder_t"]}
{"id": "C24", "title": "A reconfigured machine behaves like a freshly built one", "statement": "After reconfigure(i,c), propagation gives the same result as a Machine built from scratch with element i configured as c.", "quantifier": "all machines, all element types, all reconfigure histories, all propagated states", "why_tests_cant": "Every stateful member of every element class must be carried over by assign.", "anchors": ["src/base.cpp:Machine::reconfigure", "src/linear.cpp:ElementSource", "src/moment.cpp:ElementSource::assign", "src/flame/linear.h:LinearElementBase::assign", "src/moment.cpp:MomentElementBase::assign", "src/rf_cavity.cpp:ElementRFCavity::assign"]}
{"id": "C25", "title": "Type registry", "statement": "Registering a state or element type twice for a simulation type is an error that leaves the registry unchanged; a Machine can be built only from a registered simulation type and element types registered for it, irrespective of registration order.", "quantifier": "all registration histories", "why_tests_cant": "All orders of registration.", "anchors": ["src/base.cpp:Machine::p_registerState", "src/base.cpp:Machine::p_registerElement"]}
{"id": "C26", "title": "Observers see exactly the selected elements", "statement": "propagate with observers calls the observer of an element exactly once per visit, after the element acted and before the next one, and never for elements without an observer or outside the visited range; Python's propagate(observe=\u2026) returns one entry per observed visited element in visiting order and leaves no observer behind.", "quantifier": "all machines, observer sets and ranges", "why_tests_cant": "All subsets and ranges.", "anchors": ["src/base.cpp:Machine::propagate", "python/flame/modmachine.cpp:PyMachine_propagate"]}
{"id": "C27", "title": "Vector and TransferMatrix simulations agree", "statement": "For every lattice valid for both, the Vector result equals the TransferMatrix result (from the identity) applied to the initial vector, over any range of elements without a source (a source replaces the state).", "quantifier": "all lattices, all initial vectors, all ranges (exact arithmetic)", "why_tests_cant": "All lattices.", "anchors": ["src/linear.cpp", "src/flame/linear.h:LinearElementBase::advance"]}
{"id": "C28", "title": "Linear optics matrices are symplectic", "statement": "Drift, quadrupole, sector bend, solenoid and electrostatic element maps preserve phase space: each transverse plane (or the coupled 4x4 block) is symplectic for every parameter value the formulas accept, hence determinant one.", "quantifier": "all lengths, strengths, energies (exact arithmetic)", "why_tests_cant": "Continuum of parameters, including the branch points K=0 and sign changes.", "anchors": ["src/moment_sup.cpp:GetQuadMatrix", "src/moment_sup.cpp:GetSolMatrix", "src/moment_sup.cpp:GetSBendMatrix", "src/linear.cpp:ElementDrift", "src/linear.cpp:Get2by2Matrix"]}
{"id": "C29", "title": "Splitting an element changes nothing", "statement": "An element of length L1+L2 has the same transfer matrix as an element of length L1 followed by one of length L2 with the same strength, and positions add up.", "quantifier": "all lengths and strengths (exact arithmetic)", "why_tests_cant": "Continuum of parameters.", "anchors": ["src/linear.cpp", "src/moment_sup.cpp:GetQuadMatrix", "src/moment_sup.cpp:GetSolMatrix"]}
{"id": "C30", "title": "Per-charge-state arrays stay aligned", "statement": "At every point of any propagation the number of charge states, centroid vectors, moment matrices and per-state transfer matrices agree, so no index used by an element or by the Python/HDF5 accessors is out of range.", "quantifier": "all lattices (including strippers), all starting states, all propagation and reconfigure histories", "why_tests_cant": "All histories; stripper changes the number of states in flight.", "anchors": ["src/moment.cpp:MomentState", "src/moment.cpp:MomentElementBase::advance", "src/chg_stripper.cpp:ElementStripper::advance"]}
{"id": "C31", "title": "Covariances stay symmetric and positive semidefinite", "statement": "If every per-state moment matrix is symmetric (positive semidefinite), it remains so through every element, and so does the reported envelope matrix.", "quantifier": "all lattices, states and number of charge states (exact arithmetic)", "why_tests_cant": "All matrices and lattices.", "anchors": ["src/moment.cpp:MomentElementBase::advance", "src/moment.cpp:MomentState::calc_rms"]}
{"id": "C32", "title": "Forward then backward returns to the start", "statement": "Propagating a moment state forward through a range of invertible elements and then backward through the same range restores centroids, moments, energies, phases and position.", "quantifier": "all lattices of reversible elements, all states (exact arithmetic)", "why_tests_cant": "All lattices and states.", "anchors": ["src/moment.cpp:MomentElementBase::advance", "src/base.cpp:Machine::propagate"]}
{"id": "C33", "title": "Transfer matrix caching is invisible", "statement": "Propagation results do not depend on what was propagated earlier through the same Machine: an element's cached matrices are used only when recomputing would give the same result.", "quantifier": "all histories of propagations and reconfigurations on one Machine", "why_tests_cant": "Depends on the hidden history of earlier calls.", "anchors": ["src/moment.cpp:MomentElementBase::advance", "src/moment.cpp:MomentElementBase::check_cache", "src/moment.cpp:Particle"]}
{"id": "C34", "title": "Envelope centroid is the charge weighted mean", "statement": "The reported envelope centroid is the charge weighted average of the per-state centroids, lies within their range, and the reported envelope covariance is the weighted mean covariance plus the spread of centroids.", "quantifier": "all numbers of charge states, weights and centroids (exact arithmetic)", "why_tests_cant": "All weight vectors.", "anchors": ["src/moment.cpp:MomentState::calc_rms"]}
{"id": "C35", "title": "Zero misalignment is no misalignment", "statement": "An element with all misalignment parameters zero has exactly the transfer matrix of the unmisaligned element, and misalignment by a pure shift is undone by its inverse.", "quantifier": "all elements, all reference energies (exact arithmetic)", "why_tests_cant": "Continuum of parameters.", "anchors": ["src/moment.cpp:MomentElementBase::get_misalign", "src/moment_sup.cpp:RotMat"]}
{"id": "C36", "title": "Stripper output", "statement": "A charge stripper replaces the charge states by exactly the configured list, in order, with the configured fractions; it refuses inconsistent configurations and refuses to run backwards.", "quantifier": "all stripper configurations and incoming states", "why_tests_cant": "All list lengths.", "anchors": ["src/chg_stripper.cpp:ElementStripper::advance", "src/chg_stripper.cpp:Stripper_GetMat"]}
{"id": "C37", "title": "A cloned state is complete and independent", "statement": "clone() yields a state that behaves exactly like the original in any subsequent propagation and shares nothing with it.", "quantifier": "all states and continuations", "why_tests_cant": "All states including those in the middle of a backward propagation.", "anchors": ["src/base.cpp:StateBase::StateBase", "src/moment.cpp:MomentState::MomentState", "src/flame/base.h:StateBase::clone"]}
{"id": "C38", "title": "Numeric tables", "statement": "Reading a numeric table either fails or yields exactly the numbers of the text, row by row, all rows of equal length, with column names in header order; comments and blank lines do not matter.", "quantifier": "all input texts", "why_tests_cant": "All texts.", "anchors": ["src/util.cpp:numeric_table::read"]}
{"id": "C39", "title": "Table cache freshness", "statement": "fetch() returns the current content of the file: the cached table is reused only while the file is unmodified.", "quantifier": "all histories of file modifications and fetches", "why_tests_cant": "Depends on the timing of modification relative to reading.", "anchors": ["src/util.cpp:numeric_table_cache::fetch"]}
{"id": "C40", "title": "Index iteration is exhaustive", "statement": "Iterating over an N-dimensional array shape visits every index tuple within the limits exactly once, never an index out of range, and then stops.", "quantifier": "all dimensions and limits", "why_tests_cant": "All shapes, including those with an empty dimension.", "anchors": ["src/flame/util.h:ndindex_iterate"]}
{"id": "C41", "title": "State arrays: write then read", "statement": "Assigning an array to a state attribute and reading it back yields the same array, element by element, without changing any other attribute; a shape mismatch is rejected without changing anything.", "quantifier": "all state types, attributes, shapes, memory layouts and contents", "why_tests_cant": "All shapes and strides.", "anchors": ["python/flame/modstate.cpp:PyState_setattro", "python/flame/modstate.cpp:PyState_getattro", "src/flame/base.h:StateBase::ArrayInfo::raw", "src/moment.cpp:MomentState::getArray"]}
{"id": "C42", "title": "HDF5 output records the state", "statement": "Each append to an HDF5 output stores, for every attribute, the same array a user reads from the state, one row per appended state in order.", "quantifier": "all state types, numbers of charge states and append histories", "why_tests_cant": "All shapes and histories.", "anchors": ["src/h5writer.cpp:H5StateWriter::append", "src/moment.cpp:MomentState::getArray"]}
{"id": "C43", "title": "Power series helpers", "statement": "Integer powers and fitted polynomials used by the cavity model equal the mathematical power and polynomial for every argument.", "quantifier": "all bases, exponents >= 0 and coefficient lists (exact arithmetic)", "why_tests_cant": "All exponents.", "anchors": ["src/rf_cavity.cpp:ipow", "src/rf_cavity.cpp:calFitPow", "src/rf_cavity.cpp:PwrSeries"]}
{"id": "C44", "title": "Cavity energy never below rest energy", "statement": "Whatever the fields and phases, tracking through a cavity never produces a total energy below the rest energy.", "quantifier": "all field maps, phases and incoming energies", "why_tests_cant": "All field maps.", "anchors": ["src/rf_cavity.cpp:GetCavBoost"]}
{"id": "C45", "title": "State attribute enumeration", "statement": "For every state the attribute enumeration by index is dense: indices 0..k-1 exist, all others do not, names are distinct and stay attached to the same index for the life of the state.", "quantifier": "all states and indices", "why_tests_cant": "All indices, and across all later propagation.", "anchors": ["src/moment.cpp:MomentState::getArray", "src/base.cpp:StateBase::getArray", "src/flame/state/vector.h", "src/flame/state/matrix.h"]}
{"id": "C46", "title": "Inspecting a machine does not change it", "statement": "Reading the configuration of a machine or of one of its elements from Python leaves everything later observable about the machine, including its printed configuration, unchanged.", "quantifier": "all machines and all inspection histories", "why_tests_cant": "The change is visible only through a later operation.", "anchors": ["python/flame/modmachine.cpp:PyMachine_conf", "src/config.cpp:Config::flatten"]}
{"id": "C47", "title": "Initial moment state construction", "statement": "A moment state is built only from a consistent Config: the numbers of charge states, centroid vectors and moment matrices agree, each has the right number of entries, and the resulting per-state data are those named in the Config; otherwise construction fails.", "quantifier": "all Configs", "why_tests_cant": "All combinations of present/missing/mis-sized entries.", "anchors": ["src/moment.cpp:MomentState::MomentState"]}
{"id": "C48", "title": "Numbers in lattice files are correctly rounded", "statement": "A decimal literal in a lattice file becomes the binary64 number nearest to it (ties to even), is rejected exactly when it overflows or underflows to zero, and sums, differences, products and quotients of such numbers are correctly rounded when in range.", "quantifier": "all literals and all finite operands", "why_tests_cant": "Infinitely many literals; the interesting ones are near-ties and the ends of the range.", "anchors": ["src/glps.l:32", "src/glps_ops.cpp"]}
{"id": "C49", "title": "Element matrices solve the equations of motion", "statement": "The transfer matrix of a drift, quadrupole, dipole or solenoid as a function of its length is the identity at length zero and its derivative is the focusing matrix of the element times it, so it is the flow of the linear equations of motion, focusing in the planes the sign of the strength says.", "quantifier": "all strengths, lengths and phase space points (exact arithmetic)", "why_tests_cant": "A continuum of parameters; tests compare with stored numbers of the same code.", "anchors": ["src/linear.cpp:ElementQuad", "src/linear.cpp:ElementSBend", "src/linear.cpp:ElementSolenoid", "src/linear.cpp:Get2by2Matrix"]}
{"id": "C50", "title": "Ions keep their identity", "statement": "Apart from sources and strippers no element changes the charge to mass ratio, rest energy, weight or sampling frequency of the reference particle or of any charge state, and apart from cavities none changes a kinetic energy.", "quantifier": "all lattices without sources and strippers, all states, directions and histories of the machine (exact arithmetic)", "why_tests_cant": "All lattices and hidden cache states.", "anchors": ["src/moment.cpp:MomentElementBase::advance", "src/flame/rf_cavity.h:ElementRFCavity::advance", "src/flame/moment.h:Particle"]}
{"id": "C51", "title": "Position and phases advance with the path", "statement": "An element that guides the beam moves a moment state by its length (backward when propagating backward), advances the phase of the reference particle and of every charge state by that particle's own wave number times the length (a sector bend adds what its matrix does to the phase of the centroid), and leaves energies and ion species alone.", "quantifier": "All moment lattices, states with any number of charge states, both directions, every history of reconfigurations and completed propagations in that direction.", "why_tests_cant": "Phases depend on velocity, charge state, length and cache state; tests compare a few lattices with reference numbers.", "anchors": ["src/moment.cpp:658-726", "src/moment.cpp:940-1008"]}
{"id": "C52", "title": "Energy gain of a cavity is bounded by its field", "statement": "A particle leaves a cavity with an energy that differs from its incoming energy by at most its charge times the field scale times the integral of the magnitude of the on-axis field.", "quantifier": "all field tables, phases, charges, scales and energies (exact arithmetic)", "why_tests_cant": "A continuum of phases and field tables.", "anchors": ["src/rf_cavity.cpp:GetCavBoost"]}
{"id": "C53", "title": "Cavity phase counts modulo a full turn", "statement": "Adding a multiple of 360 degrees to the phase of a cavity changes neither energies, phases, matrices nor moments of any beam that passes it.", "quantifier": "all cavities, particles, data files and numbers of turns (exact arithmetic)", "why_tests_cant": "Infinitely many phases; tests use one phase per cavity.", "anchors": ["src/rf_cavity.cpp:PropagateLongRFCav", "src/rf_cavity.cpp:InitRFCav", "src/rf_cavity.cpp:GetCavMat", "src/rf_cavity.cpp:GetCavMatGeneric"]}
{"id": "C54", "title": "A cavity without field is a drift", "statement": "A cavity with field scale zero leaves every energy alone, advances the phases like a drift of the length of its field table, and acts on the transverse planes like a drift of the length of its pieces.", "quantifier": "all cavities, data files and moving particles (exact arithmetic)", "why_tests_cant": "Every cavity file; tests run cavities with field.", "anchors": ["src/rf_cavity.cpp:InitRFCav", "src/rf_cavity.cpp:GetCavMatGeneric", "src/rf_cavity.cpp:GenCavMat2"]}
{"id": "C55", "title": "Structure of cavity matrices", "statement": "The transfer matrix of a cavity, whatever its type and fields, does not mix the three planes (a vertical dipole kick apart), shrinks both transverse planes by the same factor, which is not zero, and keeps the area of the longitudinal plane.", "quantifier": "all cavities, data files, phases and particles (exact arithmetic)", "why_tests_cant": "All field maps and multipole lattices.", "anchors": ["src/rf_cavity.cpp:InitRFCav", "src/rf_cavity.cpp:GenCavMat2", "src/rf_cavity.cpp:GetCavMatGeneric"]}
{"id": "C56", "title": "Cavity data files are never read out of bounds", "statement": "Whatever the data files of a cavity contain, building and passing it never reads or writes beyond an array; malformed files are refused with an error.", "quantifier": "all contents of cavity data files", "why_tests_cant": "All malformed files.", "anchors": ["src/rf_cavity.cpp:ElementRFCavity::LoadCavityFile", "src/rf_cavity.cpp:GetCavPhase", "src/rf_cavity.cpp:calTransfac"]}
{"id": "C57", "title": "The gaps of a symmetric cavity mirror each other", "statement": "For every built-in cavity type the fitted transit time factors of the second gap are those of the first mirrored: centres add up to the length of the cavity, T and T' change sign, S, S' and the voltage are the same; the factors computed from the field table obey the same rule.", "quantifier": "all velocities in the range of the fits, all field tables and wave numbers (exact arithmetic)", "why_tests_cant": "A continuum of velocities; a wrong digit in one of the coefficients goes unnoticed in regression tests.", "anchors": ["src/rf_cavity.cpp:ElementRFCavity::TransFacts", "src/rf_cavity.cpp:ElementRFCavity::calTransfac"]}
{"id": "C58", "title": "A cavity reports the matrix it applied", "statement": "After a beam has passed a cavity forward, the transfer matrix reported for each charge state carries the incoming centroid to the outgoing one and, without emittance growth, the incoming moment matrix to the outgoing one; position, reference particle and each charge state advance by what the cavity computations give, and the longitudinal part of each centroid is the phase and energy of its charge state relative to the reference particle.", "quantifier": "all cavities, placements, states and histories of forward propagation (exact arithmetic)", "why_tests_cant": "All beams and hidden cache states.", "anchors": ["src/flame/rf_cavity.h:ElementRFCavity::advance"]}
{"id": "C59", "title": "A lattice handed through Python stays the same", "statement": "The list of entries that GLPSParser().parse() or conf() shows, given back to Machine(), stands for the same lattice: the same variables, the same elements, and every element sees the same values as before.", "quantifier": "all Configs and all lattice texts", "why_tests_cant": "All nestings, names, orders of names and strings; the order of dict entries decides what an element sees.", "anchors": ["python/flame/modconfig.cpp:22-86", "python/flame/modconfig.cpp:98-148", "python/flame/modconfig.cpp:186-281"]}
{"id": "C60", "title": "From Python objects to Config", "statement": "A dict or list of entries becomes a Config in which each name has the last value given for it and no other name is set; a list of dicts becomes as many Configs which see their own entries and what was given before them; exactly the nestings of numbers, arrays of at most two dimensions, strings and lists of dicts of at most three levels are accepted, anything else raises; shown again, the entries are those given, each once, in byte order.", "quantifier": "all Python objects made of None, numbers, str, bytes, arrays, lists, tuples and dicts, of any size and nesting", "why_tests_cant": "Unboundedly many nestings, key orders and Unicode strings.", "anchors": ["python/flame/modconfig.cpp:22-86", "python/flame/modconfig.cpp:98-157"]}
{"id": "C61", "title": "Arguments of Machine()", "statement": "Machine(config, extra) raises an exception for arguments it does not accept and never crashes the interpreter; definitions given as extra are variables of the lattice.", "quantifier": "all arguments config and extra", "why_tests_cant": "All kinds of objects as arguments.", "anchors": ["python/flame/modconfig.cpp:186-274", "python/flame/modmachine.cpp:20-33"]}
{"id": "C62", "title": "Methods conf(), reconfigure() and allocState()", "statement": "reconfigure(i, d) gives element i the values of d over its former ones (with replace over nothing) and leaves all other elements alone, or raises and changes nothing; what conf(i) shows can be given back to reconfigure; allocState(d, inherit) makes a state from the values of d over those of the machine.", "quantifier": "all machines, indices, dicts and element classes", "why_tests_cant": "All machines and all dicts.", "anchors": ["python/flame/modmachine.cpp:60-113", "python/flame/modmachine.cpp:195-219"]}
{"id": "C63", "title": "The matrix of a Generic cavity is that of its pieces", "statement": "The transfer matrix of a Generic RF cavity takes positions and angles through the pieces of its data file one after the other (drifts, lenses, dipole kicks and the damping of accelerating gaps, evaluated at the energy and phase reached there), its phase-energy block holds the derivatives of the motion through drifts and gaps, and the area of both transverse planes shrinks by the ratio of momenta.", "quantifier": "all data files, cavities, phases and particles", "why_tests_cant": "Real-valued and over all lists of pieces; tests compare a few matrices with stored numbers.", "anchors": ["src/rf_cavity.cpp:1293-1454", "src/rf_cavity.cpp:1625-1700"]}
{"id": "C64", "title": "The matrix of a cavity with two gaps is that of its pieces", "statement": "For quarter and half wave resonators the transfer matrix takes positions and angles through the pieces of the thin lens file one after the other, the first half being the mirror image of the second, at the energies before, between and after the two gaps; deviations of phase and energy go through both gaps; and with one gap in each half the area of both transverse planes shrinks by the ratio of momenta.", "quantifier": "all data files, cavities, phases and particles", "why_tests_cant": "Real-valued and over all lists of pieces; tests compare a few matrices with stored numbers.", "anchors": ["src/rf_cavity.cpp:881-998", "src/rf_cavity.cpp:1001-1228", "src/rf_cavity.cpp:1231-1290"]}
{"id": "C65", "title": "Emittance growth in a cavity", "statement": "With EmitGrowth, a cavity adds to the mean squares of the angles of each charge state what comes of the different focusing at different phases, for phases spread like the beam; the transverse and longitudinal emittances never shrink by this, and nothing else changes.", "quantifier": "all cavities, data files, charge states and covariances", "why_tests_cant": "Real-valued; a closed formula has to agree with an integral over the spread of phases for every width.", "anchors": ["src/rf_cavity.cpp:1562-1622", "src/flame/rf_cavity.h:224-268"]}
{"id": "C66", "title": "Data files of cavities are read as they are written", "statement": "The field on axis, the multipoles and the pieces an RF cavity computes with are the numbers in its data files: one piece for each line of the thin lens file or each element of a Generic data file, in their order, with the type, length, field and coefficients written there. Files with lines that are not complete pieces, or that cannot be opened, are refused with an exception; the kind of line ends does not matter.", "quantifier": "all texts of data files and all cavities", "why_tests_cant": "Unboundedly many files, including malformed ones; tests read the few files that come with the program.", "anchors": ["src/rf_cavity.cpp:699-878", "src/util.cpp:27-127"]}
{"id": "C67", "title": "Definitions on the command line", "statement": "run_flame -D name=type:value does what an assignment at the start of the lattice file would do; the last definition of a name counts, and definitions in the lattice file overwrite those on the command line. A definition that is not of this form, of an unknown type or with a value that is no number ends the program with an error before the file is read.", "quantifier": "all definitions, lattice files, simulation types and other options", "why_tests_cant": "All texts of definitions and files.", "anchors": ["tools/cli.cpp:64-66", "tools/cli.cpp:396-432"]}
{"id": "C68", "title": "What run_flame shows", "statement": "run_flame shows exactly the states that leave the elements selected by --select-all, --select-type, --select-name and --select-last, in the order of the beamline, for the first --max elements or up to the element that fails; the output format is the one asked for, with its options. A limit that is no number and an unknown format end the program with an error. Measuring time changes nothing of this.", "quantifier": "all lattices, selections, limits and formats", "why_tests_cant": "All combinations of selections, all machines.", "anchors": ["tools/cli.cpp:30-48", "tools/cli.cpp:126-159", "tools/cli.cpp:227-352", "tools/cli.cpp:434-575"]}
{"id": "C69", "title": "A beamline is its elements one after the other", "statement": "Sending a beam through consecutive elements of a MomentMatrix machine gives what comes out when the beam goes through these elements one at a time, each in any machine; the result does not depend on the rest of the lattice, on earlier reconfigurations or on earlier beams. A line of elements with all their settings lets every moving beam pass.", "quantifier": "all lattices, sections, beams and histories of reconfigurations and propagations", "why_tests_cant": "All histories and all lattices; stale caches show only in particular orders of calls.", "anchors": ["src/base.cpp", "src/moment.cpp:658-735", "src/flame/moment.h"]}
{"id": "C70", "title": "Locations in HDF5 files", "statement": "A text such as dir/file.h5/group/sub names the group /group/sub of the file dir/file.h5, and file.h5 alone its root group; H5Loader::open() opens that group, and throws an exception if there is no such file or group.", "quantifier": "all file systems, texts and trees of groups", "why_tests_cant": "All texts and all combinations of existing files; the search for the file is a loop whose end depends on what exists.", "anchors": ["src/h5loader.cpp:50-86", "src/flame/h5loader.h:9-15"]}
{"id": "C71", "title": "Loading of datasets as matrices", "statement": "H5Loader::load() gives a dataset of at most two dimensions as a matrix of doubles with its values (a number is 1x1, a list a column), and throws for others and for names that do not exist; h5loadertest prints the dataset that its argument file[/path]/dataset names.", "quantifier": "all datasets, names and trees of groups", "why_tests_cant": "All shapes and paths.", "anchors": ["src/h5loader.cpp:96-128", "src/h5loadertest.cpp"]}
{"id": "C72", "title": "What H5StateWriter writes can be loaded", "statement": "States appended to an H5StateWriter are found by H5Loader at the location given to the writer: a matrix for each attribute with one row for each state. What was at this location before is replaced, everything else in the file and all other files stay as they were; the location of the last open() counts.", "quantifier": "all lists of states, files, locations and earlier contents", "why_tests_cant": "All sequences of opening and appending, all earlier contents of files.", "anchors": ["src/h5writer.cpp:64-112", "src/h5writer.cpp:122-234", "src/h5loader.cpp:50-128"]}
{"id": "C73", "title": "Attributes of the output file", "statement": "H5StateWriter::setAttr() stores the text it is given, and reads no other memory.", "quantifier": "all texts", "why_tests_cant": "Reading beyond the end of a string does not show in the result.", "anchors": ["src/h5writer.cpp:236-252"]}
{"id": "C74", "title": "The phase an RF cavity is driven at", "statement": "A cavity is driven such that the reference particle enters it at the phase phi of its entry relative to the phase of the greatest gain; that phase is fitted as a function of the energy, by type, by the numbers 21 to 23 of the first gap of the data file (a E^b + c), or by RefNorm and SyncFit as documented. When the particle arrives does not matter. With syncflag 0 the cavity is driven at phi itself.", "quantifier": "all cavities, data files and reference particles", "why_tests_cant": "All energies, fits and arrival times; tests compare a few lattices with earlier results.", "anchors": ["src/rf_cavity.cpp:612-672", "src/rf_cavity.cpp:1510-1559", "sphinx_doc/element.rst:716-757"]}
{"id": "C75", "title": "Transit time factors", "statement": "The transit time factors of gaps and multipoles are the even and the odd part of the field along the axis as seen by a particle of the given velocity from the centre of the field, relative to the voltage, and no particle sees more than the voltage. For the built-in types they are fitted within a range of velocities and independent of the field files there; outside of it, or with forcettfcalc, they are computed from the files.", "quantifier": "all tables of fields, velocities and cavity types", "why_tests_cant": "All tables and velocities; a fit has to be right everywhere in its range.", "anchors": ["src/rf_cavity.cpp:106-609"]}
{"id": "C76", "title": "Threads of the virtual accelerator", "statement": "Whatever threads process records of a virtual accelerator while its worker simulates, the effect is that of whole records and whole simulations one after the other. Every request for a simulation is followed by one, there are no more simulations than requests, nobody waits for ever, and at the end of the IOC the worker returns before the thread that ends it goes on, and nothing is simulated after.", "quantifier": "all numbers of threads, records and interleavings", "why_tests_cant": "Interleavings can not be enumerated or provoked by tests.", "anchors": ["vaccel/flame.cpp:12-82", "vaccel/flame.cpp:172-187", "vaccel/flamedev.cpp", "vaccel/flameset.cpp", "vaccel/flamemeasure.cpp", "vaccel/flameorbit.cpp"]}
{"id": "C77", "title": "Links of the virtual accelerator's records", "statement": "A record is initialised from a link 'simulation element[i] parameter' (settings), 'simulation element[i] attribute[j,k]' (readings), 'simulation elementname attribute[j,k]' (orbits) or 'simulation element[i]' (indices) exactly if they all exist; otherwise it is refused and nothing has changed. flamePrepare only adds simulations, under new names.", "quantifier": "all texts, lattices and sets of simulations", "why_tests_cant": "All texts.", "anchors": ["vaccel/flameset.cpp:13-67", "vaccel/flamemeasure.cpp:31-108", "vaccel/flameorbit.cpp:23-103", "vaccel/flameelem.cpp:11-66", "vaccel/flame.cpp:94-121"]}
{"id": "C78", "title": "Settings of the virtual accelerator", "statement": "A setting record writes its value into the Config of its element: readbacks of the same parameter show it from then on, until it is written again, all other readbacks and what was simulated stay as they are; a write that the element does not take has an alarm and changes nothing. A record reads back what was written to it.", "quantifier": "all elements, parameters, numbers, scales and histories of all threads", "why_tests_cant": "All histories and numbers.", "anchors": ["vaccel/flameset.cpp:69-129", "src/base.cpp:200-214"]}
{"id": "C79", "title": "Readings of the virtual accelerator", "statement": "A reading, or an orbit, without alarm shows what a new simulation of the lattice, with the settings made, gives at its element, attribute and index. There is an alarm before the first simulation, after one that failed, and if there is no such number; the message of the failure is shown. Behaviour stays defined with all records that were accepted.", "quantifier": "all lattices, histories and interleavings of records and simulations", "why_tests_cant": "All histories; a stale value looks like any other.", "anchors": ["vaccel/flame.cpp:12-82", "vaccel/flamedev.cpp:15-60", "vaccel/flamemeasure.cpp:110-154", "vaccel/flameorbit.cpp:105-182"]}
{"id": "C80", "title": "Databases for the virtual accelerator", "statement": "The generator writes records for every element of the lattice whose type has a template, in order. No two records have the same name; each is about the element it was written for, also if several have the same name; and the IOC accepts all of them. It fails only for a lattice without such elements.", "quantifier": "all lattices, record prefixes and names of simulations", "why_tests_cant": "All lattices; a record about a wrong element of equal name looks like any other.", "anchors": ["python/flame/ioc.py:13-120", "python/flame/data", "vaccel/flameelem.cpp:11-66"]}
{"id": "C81", "title": "Log messages", "statement": "A log message is passed on once, to the logger that was set last, exactly if its level is at least the one that was set last; messages stay in order. On the standard error stream each is a line that begins with its place in the code; in Python it arrives with level, place and its text without newlines at the end. After import flame all messages but those of level DEBUG are passed on; each step of --verbose above 2 shows one level more.", "quantifier": "all sequences of messages, loggers and levels", "why_tests_cant": "All texts and sequences.", "anchors": ["src/base.cpp:278-317", "src/flame/base.h:497-543", "python/flame/modmain.cpp:17-110", "python/flame/__init__.py:41-43", "tools/cli.cpp:394-400"]}
{"id": "C82", "title": "Machine.conf() as a dict", "statement": "Machine.conf() gives an OrderedDict with every visible name once, in byte order, with its value, the elements as a list of OrderedDicts at every depth. A Machine made from it is the one made from the list of the extension module; reconfigure(i, conf(i), replace=True) rebuilds the element from the same values. GLPSParser.parse() gives such a dict too.", "quantifier": "all configurations", "why_tests_cant": "All configurations.", "anchors": ["python/flame/__init__.py:10-39", "python/flame/modmachine.cpp:60-84", "python/flame/modconfig.cpp:22-157"]}
{"id": "C83", "title": "Markers and monitors do not change a digit", "statement": "A marker or a monitor put anywhere in a line changes no digit of any number shown behind it: position, phases, energies, centroids, covariances, envelopes and transfer matrices come out as without it, in the arithmetic of doubles. In the same way a component that an element leaves alone, such as the momenta in a drift, keeps its digits.", "quantifier": "all lines, states and markers", "why_tests_cant": "Rounding: a product with a unit matrix must be exact for every number there is, and so must every sum with zeros.", "anchors": ["src/flame/linear.h:54-59", "src/flame/moment.h:46-53", "src/moment.cpp:201-233", "src/moment.cpp:658-726", "src/moment.cpp:806-861"]}
{"id": "C84", "title": "Covariances as they are rounded", "statement": "Starting from a covariance matrix the simulation shows covariance matrices as far as rounding lets one tell: variances are not negative, so that every rms is a number; the matrix is symmetric; planes that no element mixes stay exactly uncorrelated.", "quantifier": "all lines and beams", "why_tests_cant": "Whether a sum of rounded products falls below zero depends on the last digits of all of them.", "anchors": ["src/moment.cpp:201-233", "src/moment.cpp:658-726", "src/moment.cpp:848-861"]}
{"id": "C85", "title": "Rounding errors are bounded", "statement": "As long as the result is finite, centroid, covariance, position and Vector state differ from what exact arithmetic gives with the same matrices by no more than a relative error of 2e-15 per element of the sum of the magnitudes of all products, plus what is too small to be stored (below 1e-300 per element). Over a line the relative part grows as (1 + 2^-53)^(7 N) - 1.", "quantifier": "all lines and states with finite results", "why_tests_cant": "Bounds over all inputs; errors of single cases tell nothing about others.", "anchors": ["src/flame/linear.h:54-59", "src/moment.cpp:658-726"]}
{"id": "C86", "title": "A lattice file may be as long as needed", "statement": "Whether a lattice file is read depends on what its statements say, not on how many there are: a file of any number of statements, beamlines of any number of members and vectors of any length are read like short ones, and no file is ever misread because of its size.", "quantifier": "all texts", "why_tests_cant": "The sizes at which reading fails are far beyond those of test files and are a consequence of the shape of the grammar.", "anchors": ["src/glps.y:82-126", "src/CMakeLists.txt:7-15", "src/glps_parser.cpp:524-557"]}
{"id": "C87", "title": "Messages of the lattice parser name the line of the error", "statement": "When a lattice file is refused, the exception says 'On line N', N is a line of the file, and it is the line of the mistake: nothing below it has to be changed, and the wrong name, token or statement is on it. print() likewise names an existing line.", "quantifier": "all texts and preset variables", "why_tests_cant": "The line is a side effect of how far the generated parser has read ahead, which differs between productions; tests compare single messages.", "anchors": ["src/glps.l:43-49", "src/glps.y:7-12", "src/glps_parser.cpp:47-57", "src/glps_parser.cpp:486-521", "src/glps_parser.cpp:524-557"]}
{"id": "C88", "title": "Memory of machines, elements and observers", "statement": "A program that makes Machines, attaches Observers which outlive the elements, propagates, reconfigures and deletes the Machines accesses no object that is gone and deletes none twice, and in the end nothing is left in memory, also when constructions fail. From Python this holds for every sequence of calls; the command line tool frees all its observers whatever the options select.", "quantifier": "all programs over all registries of element types, all configurations, all orders of calls", "why_tests_cant": "Double deletes and leaks show only under a memory checker, and for the sequence of calls that was run; the owner of an observer is nowhere visible in the interface.", "anchors": ["src/base.cpp:64-67", "src/base.cpp:82-166", "src/flame/base.h:201-207", "src/flame/base.h:414-422", "python/flame/modmachine.cpp:12-48", "python/flame/modmachine.cpp:114-193", "tools/cli.cpp:497-587"]}
{"id": "C89", "title": "What printing machines and states says", "statement": "The text of a Machine lists every element once, in order, with its index, name and type, and follows reconfigure(); for a machine made from a lattice file these are the flattened beamline, whatever the file contains, and two such machines with the same text have the same elements. The trace of propagate() and the txt output of run_flame have one entry for each element that ran (each call of an observer), in order, with the state as it was then, also backwards and when an exception ends the run; they change nothing about the simulation, and searching the output for such entries finds no others. The text of a state shows it, a higher level shows no less, and it does not depend on what was written before; numbers are right to the last digit shown.", "quantifier": "all machines, names and states, all runs, levels and stream formats", "why_tests_cant": "Tests compare a few printed texts; which names, numbers or orders of printing garble the text, and that nothing else in it looks like an entry, is a statement about all texts.", "anchors": ["src/base.cpp:69-72", "src/base.cpp:167-192", "src/base.cpp:267-276", "src/flame/base.h:46-48", "src/flame/base.h:143-147", "src/flame/state/vector.h:29", "src/linear.cpp:54-57", "src/linear.cpp:104-107", "src/moment.cpp:50-65", "src/moment.cpp:265-302", "python/flame/modstate.cpp:260-316", "tools/cli.cpp:251-263", "tools/cli.cpp:556-577"]}
{"id": "C90", "title": "Types, machines and registeryCleanup()", "statement": "registeryCleanup() may be called at any time: it discards all types and frees all that registering them allocated, exactly once. Machines made before go on working with the types they were made with, whatever is registered, refused or discarded later: construction, reconfigure(), allocState(), propagate() and deletion answer as if types were never freed. After it registering and constructing answer as in a new process.", "quantifier": "all sequences of registrations, clean-ups, constructions, reconfigurations, allocations of states, propagations and deletions, with all types, machines and Configs", "why_tests_cant": "Tests clean up once at the end of the process; in which orders of calls a freed builder is used is a statement about all sequences.", "anchors": ["src/base.cpp:81-158", "src/base.cpp:193-265", "src/flame/base.h:398-435", "src/flame/base.h:459-493", "tools/cli.cpp:579", "examples/sim.cpp:45"]}
{"id": "C91", "title": "The tutorial's simulation", "statement": "A program written after the tutorial can use its simulation type Simple1D: lattices with its two element types are accepted and no others; propagation passes each entry of the lattice once and in order, also after reconfigurations; a source resets the state. Place x and velocity xv change as those of a body with the given acceleration for the transit time of the element, so that cutting elements changes nothing and going backwards leads back; states are printed with their numbers.", "quantifier": "all lattices, states, ranges and sequences of reconfigurations", "why_tests_cant": "The example is run once with one lattice; what it computes for others, and whether that is a motion, is a statement about all of them.", "anchors": ["examples/customsim.cpp:13-138", "examples/customsim.cpp:143-203", "documentation/mainpage.h:596-680", "src/base.cpp:167-214", "src/flame/base.h:46-48"]}
{"id": "C92", "title": "Static calls from several threads", "statement": "Any thread may register types, clean up the registry, create Machines, set the logger and write messages at any time: each of these calls returns, the answers are those of the calls made one after another in some order that keeps the order of each thread, and a logger gets no message after it was replaced.", "quantifier": "all programs of any number of threads, all interleavings of their steps, all constructors of elements", "why_tests_cant": "No test reaches all interleavings, and a deadlock that depends on what constructors of user-defined elements do is not in the tests' elements.", "anchors": ["src/base.cpp:10-14", "src/base.cpp:82-158", "src/base.cpp:218-265", "src/base.cpp:295-317", "src/flame/base.h:229-231", "src/flame/base.h:451", "src/flame/base.h:475", "src/flame/base.h:491", "src/flame/base.h:496-543"]}
{"id": "C93", "title": "Caches of curve files and cavity data files", "statement": "Elements that take field curves or cavity data from a file use what the file says at the time they are computed, although files are read once and kept for the whole program: a changed file is read again, a mended one is accepted, a bad or missing one raises an error. Threads with machines and states of their own do not disturb each other through the caches.", "quantifier": "all histories of files, names and times; all contents; all interleavings of threads", "why_tests_cant": "Tests use files that never change, in one thread; staleness depends on the history of the files and races on the interleaving.", "anchors": ["src/moment_sup.cpp:18", "src/moment_sup.cpp:385-417", "src/rf_cavity.cpp:22", "src/rf_cavity.cpp:805-829", "src/moment.cpp:1071", "src/moment.cpp:1235", "src/moment.cpp:1386", "src/flame/base.h:229-231"]}
