{"id": "C01", "title": "Expression arithmetic preserves value", "statement": "For any two scalar expressions a, b and any assignment of numbers to identifiers under which both have a value, the expressions returned by a+b, a-b, a*b, -a and (when b is non-zero) a/b have the value that ordinary arithmetic gives on the values of a and b, in spite of the zero/one/minus-one short-cuts and of the constant folding the operators apply.", "quantifier": "every pair of expression trees and every numeric assignment of identifiers", "why_tests_cant": "The short-cuts (drop +0, *1, *-1 => negate, 0*x => 0, constant folding, double negation) interact at every depth of arbitrarily large trees; tests check a handful of literals.", "anchors": ["src/mccode_antlr/common/expression.py:Op.__add__,__sub__,__mul__,__truediv__,__neg__", "src/mccode_antlr/common/expression.py:Value.__add__,__sub__,__mul__,__truediv__,__neg__", "src/mccode_antlr/common/expression.py:binary_expr,unary_expr,Expr"]}
{"id": "C02", "title": "simplify() preserves value", "statement": "Calling simplify() on any scalar expression gives an expression with the same value as the original under every assignment of numbers to identifiers for which the original has a value.", "quantifier": "every expression tree (unary, binary, ternary, call, group nodes) and every assignment", "why_tests_cant": "Simplification is a recursive rewrite over unbounded trees; each rewrite rule must be sound at every position.", "anchors": ["src/mccode_antlr/common/expression.py:TrinaryOp.simplify,BinaryOp.simplify,UnaryOp.simplify,Value.simplify,Expr.simplify"]}
{"id": "C03", "title": "Integer division and powers follow Python arithmetic", "statement": "a // b and a ** b on constant expressions give the same number as Python's // and ** on the underlying numbers, and dividing by a zero constant is reported as an error.", "quantifier": "every pair of numeric constants", "why_tests_cant": "The operators special-case 0, 1 and -1 before delegating, so agreement must be checked on every corner of the constant plane, not on samples.", "anchors": ["src/mccode_antlr/common/expression.py:Value.__floordiv__,__pow__,__truediv__", "src/mccode_antlr/common/expression.py:Op.__floordiv__"]}
{"id": "C04", "title": "evaluate(known) is substitution", "statement": "For any expression e and any dictionary of known numeric values, e.evaluate(known) has, under every assignment, the value e has under the assignment updated with the known values; identifiers that are in the dictionary no longer occur in the result.", "quantifier": "every expression tree, every finite dictionary, every assignment", "why_tests_cant": "Substitution followed by folding must be right for every tree shape and dictionary, which sampling cannot establish.", "anchors": ["src/mccode_antlr/common/expression.py:TrinaryOp.evaluate,BinaryOp.evaluate,UnaryOp.evaluate,Value.evaluate,Expr.evaluate"]}
{"id": "C05", "title": "Dependence test is sound", "statement": "If depends_on(name) (or `name in expr`) is False then changing the number assigned to that name never changes the value of the expression, whatever the other assignments are; and the test gives True for every identifier that occurs in the tree.", "quantifier": "every expression tree, name and pair of assignments that differ only at the name", "why_tests_cant": "It is a two-run (non-interference) property over all assignments.", "anchors": ["src/mccode_antlr/common/expression.py:depends_on,__contains__ of TrinaryOp,BinaryOp,UnaryOp,Value,Expr"]}
{"id": "C06", "title": "Data type promotion is a join", "statement": "Combining the data types of operands with + is commutative, associative and idempotent with `undefined` as identity, so the data type reported for a sum does not depend on how the sum is bracketed or ordered; integer/float combinations give float and anything with a string gives string.", "quantifier": "every finite list of data types and every bracketing/permutation of it", "why_tests_cant": "The claim ranges over every bracketing and permutation of unboundedly many operands.", "anchors": ["src/mccode_antlr/common/expression.py:DataType.__add__,__sub__,__mul__,__truediv__,compatible"]}
{"id": "C07", "title": "Printed expression re-reads as the same expression", "statement": "The text printed for an expression, when read back with C's operator precedence and associativity, has the same value as the expression under every assignment.", "quantifier": "every expression tree that can be built with the public operators", "why_tests_cant": "Which nodes need brackets depends on the whole context of a node in an arbitrary tree.", "anchors": ["src/mccode_antlr/common/expression.py:BinaryOp._str_repr_,UnaryOp._str_repr_,TrinaryOp._str_repr_", "src/grammar/McCommon.g4:expr"]}
{"id": "C08", "title": "Folding constants agrees with the generated C", "statement": "An expression made of integer constants has the same value after constant folding by the Python object as the C compiler would give the unfolded text.", "quantifier": "every constant expression tree over integers", "why_tests_cant": "Agreement of two evaluators over all trees.", "anchors": ["src/mccode_antlr/common/expression.py:BinaryOp.simplify,Value.__truediv__", "src/mccode_antlr/common/visitor.py:visitExpressionBinaryMD"]}
{"id": "C09", "title": "Expression equality is an equivalence that respects value", "statement": "Two expressions that compare equal have the same value under every assignment, comparison is symmetric, and equal expressions have equal hashes so that they may be used as dictionary keys.", "quantifier": "every pair of expression trees and every assignment", "why_tests_cant": "A relation over pairs of unbounded trees; the commutative clause makes equality non-structural at every level.", "anchors": ["src/mccode_antlr/common/expression.py:BinaryOp.__eq__,__hash__,UnaryOp.__eq__,Value.__eq__,TrinaryOp.__eq__"]}
{"id": "C10", "title": "Instrument parameters are flagged exactly", "statement": "After verify_parameters(names) every identifier of the expression that names an instrument parameter is marked as a parameter, nothing else changes (same value, same identifiers), and repeating the call changes nothing more.", "quantifier": "every expression tree and every list of names", "why_tests_cant": "Must hold at every leaf of every tree and be idempotent.", "anchors": ["src/mccode_antlr/common/expression.py:verify_parameters", "src/mccode_antlr/instr/instr.py:verify_instance_parameters,check_expr"]}
{"id": "C11", "title": "Rotations built from angles are rigid", "statement": "Rotation.from_angles gives, for every triple of angles, an orthogonal matrix of determinant one whose inverse() is its transpose; so distances between points never change under a component's placement.", "quantifier": "every triple of real angles", "why_tests_cant": "A statement over a continuum of angles.", "anchors": ["src/mccode_antlr/instr/orientation.py:Rotation.from_angles,Rotation.inverse,Matrix.__mul__"]}
{"id": "C12", "title": "Single-axis rotation parts are rigid", "statement": "RotationX, RotationY and RotationZ parts describe, for every angle, a rotation by that angle about that axis (orthogonal, determinant one, angle additive).", "quantifier": "every real angle, in degrees", "why_tests_cant": "The implementation special-cases some angles (0, 90, 180, ...), so every special case and the generic branch must be covered.", "anchors": ["src/mccode_antlr/instr/orientation.py:RotationX,RotationY,RotationZ,RotationPart,cos_value,sin_value"]}
{"id": "C13", "title": "Chains of parts compose", "statement": "Resolving a chain of rotation and translation parts to one transformation gives the composition of the parts in order; concatenating chains composes; inverse() of a chain is the inverse transformation; reduce() leaves the transformation unchanged.", "quantifier": "every finite chain of parts", "why_tests_cant": "Chains have unbounded length; order matters because rotations do not commute.", "anchors": ["src/mccode_antlr/instr/orientation.py:Parts.resolve,Parts.reduce,Parts.inverse,Parts.__add__,Seitz.__mul__,Seitz.inverse"]}
{"id": "C14", "title": "Python placement equals C placement", "statement": "For every instrument the absolute position and absolute rotation of each component computed by the Python Orient objects is the same as the one the generated C initialisation code computes from the same AT/ROTATED clauses.", "quantifier": "every finite list of components with arbitrary AT/ROTATED vectors and arbitrary earlier references", "why_tests_cant": "It relates two algorithms over instruments of unbounded length with an arbitrary reference structure.", "anchors": ["src/mccode_antlr/instr/orientation.py:Orient.from_dependent_orientations", "src/mccode_antlr/instr/instance.py:__post_init__", "src/mccode_antlr/translators/c_initialise.py:cogen_comp_init_position"]}
{"id": "C15", "title": "A particle is presented to each component in that component's frame", "statement": "Applying, in order, the coordinate changes the generated trace code applies between components takes a particle from the laboratory frame to the local frame of the component about to be executed, even though changes for components with an identity relative placement are skipped.", "quantifier": "every instrument (any number of components, any placements, any set of skipped components) and every particle state", "why_tests_cant": "An invariant over an unbounded sequence of coordinate changes with an arbitrary skip pattern.", "anchors": ["src/mccode_antlr/translators/c_initialise.py:cogen_comp_init_position,cogen_initialize", "src/mccode_antlr/translators/target.py:detect_skipable_transforms", "src/mccode_antlr/translators/c_raytrace.py:cogen_raytrace"]}
{"id": "C16", "title": "Component instance names stay unique", "statement": "After any history of successful and failing component additions to an instrument, no two component instances have the same name; a rejected addition leaves the instrument as it was; and an accepted one puts the new instance last without changing the others.", "quantifier": "every finite history of additions", "why_tests_cant": "Invariant over unbounded histories, including failing operations.", "anchors": ["src/mccode_antlr/instr/instr.py:add_component,get_component,last_component", "src/mccode_antlr/assembler/assembler.py:component"]}
{"id": "C17", "title": "Instrument parameters stay unique, first definition wins", "statement": "After any history of parameter additions, with or without ignore_repeated, no two instrument parameters have the same name, and the value of a name is the one given by the first successful addition.", "quantifier": "every finite history of additions", "why_tests_cant": "Invariant over unbounded histories.", "anchors": ["src/mccode_antlr/instr/instr.py:add_parameter,get_parameter,has_parameter", "src/mccode_antlr/common/parameters.py:parameter_name_present"]}
{"id": "C18", "title": "Metadata: one entry per name, last writer wins", "statement": "After any history of add_metadata calls there is exactly one entry for every name that was ever added, carrying the last value added; metadata collected for an instance keeps the component's entries except for the names that the instance overrides.", "quantifier": "every finite history of additions, on instruments, components and instances", "why_tests_cant": "Invariant over unbounded histories.", "anchors": ["src/mccode_antlr/instr/instr.py:add_metadata,collect_metadata", "src/mccode_antlr/instr/instance.py:add_metadata,collect_metadata", "src/mccode_antlr/comp/comp.py:add_metadata"]}
{"id": "C19", "title": "References always point backwards", "statement": "In an instrument read from a file, every AT/ROTATED reference (by name, PREVIOUS or PREVIOUS_n) of a component is to a component that was added before it, hence placements are never circular, and an unresolvable reference is an error rather than a wrong placement.", "quantifier": "every finite sequence of component declarations with arbitrary references", "why_tests_cant": "Acyclicity over unbounded sequences.", "anchors": ["src/mccode_antlr/instr/visitor.py:visitComponent_ref,visitComponent_instance", "src/mccode_antlr/instr/instr.py:get_component,last_component"]}
{"id": "C20", "title": "Group bookkeeping matches the components", "statement": "After the groups of an instrument are determined, each group lists exactly the positions of the components that name it, in increasing order, its leader is its first member and its last id is its last member; determining the groups again changes nothing.", "quantifier": "every finite list of components with arbitrary group assignments", "why_tests_cant": "Unbounded component lists; idempotence.", "anchors": ["src/mccode_antlr/instr/instr.py:determine_groups", "src/mccode_antlr/instr/group.py:Group"]}
{"id": "C21", "title": "Splitting an instrument preserves every component", "statement": "Instr.split(name) gives two instruments whose component sequences are the prefix up to and including, and the suffix starting from, the named component; every component keeps type, parameters, and its absolute placement; the second part only refers to components it contains; and group bookkeeping of each part refers to that part's own components.", "quantifier": "every instrument and every split point", "why_tests_cant": "Every split point of unbounded instruments with arbitrary references across the cut.", "anchors": ["src/mccode_antlr/instr/instr.py:split,copy,make_instance,mcpl_split"]}
{"id": "C22", "title": "Removing unused parameters is safe", "statement": "check_instrument_parameters(remove=True) never removes a parameter that any part of the instrument (component parameters, placements, conditions, C blocks) uses, and reports exactly the number of parameters that are unused.", "quantifier": "every instrument", "why_tests_cant": "Quantifies over all places where a name can occur in an arbitrary instrument.", "anchors": ["src/mccode_antlr/instr/instr.py:parameter_used,check_instrument_parameters", "src/mccode_antlr/instr/instance.py:parameter_used"]}
{"id": "C23", "title": "The effective value of a component parameter is determined by the set history", "statement": "After any sequence of set_parameter calls on an instance the value reported for a parameter is determined by the history: with overwrite the latest value, with allowed repeats the first, and otherwise a repeat is an error; parameters unknown to the component type are always rejected; without any set the component's default is used.", "quantifier": "every finite history of set_parameter calls with arbitrary flags", "why_tests_cant": "Invariant over unbounded histories.", "anchors": ["src/mccode_antlr/instr/instance.py:set_parameter,get_parameter,set_parameters"]}
{"id": "C24", "title": "Factory method honours its arguments", "statement": "make_instance(name, ..., group=g, removable=r) appends a component whose group is g and whose removable flag is r.", "quantifier": "every argument combination", "why_tests_cant": "The claim is about every combination of arguments.", "anchors": ["src/mccode_antlr/instr/instr.py:make_instance", "src/mccode_antlr/instr/instance.py:Instance"]}
{"id": "C25", "title": "Dependency strings are expanded completely or rejected", "statement": "Expanding CMD(...)/ENV(...)/GETPATH(...) in a dependency string replaces every well formed occurrence, leaves all other text as it was, terminates on every input, and reports a malformed occurrence with the documented error instead of an unrelated failure.", "quantifier": "every string and every expansion function", "why_tests_cant": "String rewriting loop over arbitrary text; termination depends on what the expansion returns.", "anchors": ["src/mccode_antlr/instr/instr.py:_replace_env_getpath_cmd,decoded_flags"]}
{"id": "C26", "title": "Writing and re-reading an instrument keeps its meaning", "statement": "The text written for a component instance contains every clause that influences the simulation (REMOVABLE, CPU, SPLIT, WHEN, AT, ROTATED, GROUP, EXTEND, JUMP), so that reading it back gives an instance with the same fields.", "quantifier": "every instance", "why_tests_cant": "Every combination of optional clauses and every reference.", "anchors": ["src/mccode_antlr/instr/instance.py:to_file", "src/mccode_antlr/instr/jump.py:to_file"]}
{"id": "C27", "title": "A scan range lists exactly its grid points", "statement": "Iterating MRange(start, stop, step) gives start, start+step, ... up to and including the last value that does not pass stop; len() is the number of these values, and indexing gives the same values as iteration.", "quantifier": "every start, stop and non-zero step with start different from stop", "why_tests_cant": "Unbounded numeric ranges; the interesting cases are boundaries that samples miss.", "anchors": ["src/mccode_antlr/run/range.py:MRange.__iter__,__len__,__getitem__"]}
{"id": "C28", "title": "The number of scan points announced is the number produced", "statement": "parameters_to_scan returns a count equal to the number of value tuples its iterator produces, each tuple has one value per parameter name in the same order, grid scans list every combination exactly once and linear scans pair values index by index.", "quantifier": "every dictionary of ranges, singulars and lists", "why_tests_cant": "Products and zips over unboundedly many ranges.", "anchors": ["src/mccode_antlr/run/range.py:parameters_to_scan"]}
{"id": "C29", "title": "Each scan point is run with its own values", "statement": "A scan over n points runs the binary n times, the k-th time with the k-th tuple of parameter values and with an output directory that no other point uses.", "quantifier": "every parameter dictionary and point index", "why_tests_cant": "Quantifies over all points of all scans.", "anchors": ["src/mccode_antlr/run/runner.py:mccode_run_scan,mccode_runtime_parameters"]}
{"id": "C30", "title": "Command line parameters are parsed without loss", "statement": "Each name=value or name value pair of the command line gives an entry with that name; the last one wins; a left-over word is an error; reordering of options ahead of parameters by the run script keeps all words and the relative order of both kinds.", "quantifier": "every list of words", "why_tests_cant": "Arbitrary word lists.", "anchors": ["src/mccode_antlr/run/range.py:parse_command_line_parameters,parse_scan_parameters", "src/mccode_antlr/run/runner.py:sort_args"]}
{"id": "C31", "title": "Combining data files adds counts", "statement": "Combining any number of repeats of a monitor file adds intensities, event counts and Ncount, independently of the order and the grouping in which the files are combined, keeps the axis values and either reports contradictory metadata or keeps it.", "quantifier": "every finite list of compatible files", "why_tests_cant": "Fold over unboundedly many files in any order.", "anchors": ["src/mccode_antlr/loader/datfile.py:combine_scan_dicts,combine_scan_data,combine_mccode_dats"]}
{"id": "C32", "title": "Combining simulation files conserves statistics", "statement": "Combining repeated simulations gives Ncount, intensity and event totals that are the sums over the inputs, error bars that are the root of the sum of squares, for any number of inputs and in any order; and the set of monitors is the union of those of the inputs.", "quantifier": "every finite list of simulation descriptions", "why_tests_cant": "Fold over unboundedly many inputs.", "anchors": ["src/mccode_antlr/loader/simfile.py:SimFileData.combine,SimFileSimulation.combine,combine_mccode_sims"]}
{"id": "C33", "title": "Simulation file write/read round trip", "statement": "Parsing the text written for a simulation description gives back the same description.", "quantifier": "every simulation description whose fields are trimmed single-line texts without the section markers", "why_tests_cant": "Round trip over all field contents.", "anchors": ["src/mccode_antlr/loader/simfile.py:parse,to_file,read_keywords"]}
{"id": "C34", "title": "Registry priority decides which file is used", "statement": "A reader built from registries asks them in decreasing priority, registries of equal priority in the given order, and uses the first one that knows the requested file; adding registries of lower priority never changes a resolution that already succeeded.", "quantifier": "every list of registries and every file name", "why_tests_cant": "Sorting stability and first-match over unbounded lists.", "anchors": ["src/mccode_antlr/reader/registry.py:ordered_registries", "src/mccode_antlr/reader/reader.py:locate,contents,fullname,prepend_registry"]}
{"id": "C35", "title": "A registry that knows a file serves that very file", "statement": "If a remote registry reports a name as known, then the file it resolves the name to is the one carrying this name, and resolution does not fail or give a different component.", "quantifier": "every registry content and requested name", "why_tests_cant": "Any set of file names, including ones that contain one another.", "anchors": ["src/mccode_antlr/reader/registry.py:RemoteRegistry.known,fullname,_name_plus_suffix"]}
{"id": "C36", "title": "Each component definition is read once", "statement": "Within one reader, however often and in whatever order components are requested, every component file is read at most once and all requests for a name give the same definition object.", "quantifier": "every finite sequence of component requests", "why_tests_cant": "Invariant over unbounded request histories.", "anchors": ["src/mccode_antlr/reader/reader.py:get_component,add_component"]}
{"id": "C37", "title": "A cached registry listing is complete", "statement": "If a process is interrupted at any moment while a remote registry listing is being stored in the cache, the next start either sees the complete listing or fetches it again.", "quantifier": "every listing and every crash point during the write", "why_tests_cant": "Crash points cannot be enumerated by unit tests.", "anchors": ["src/mccode_antlr/reader/registry.py:GitHubRegistry.__init__"]}
{"id": "C38", "title": "Library includes are emitted once and after what they need", "statement": "The list of C libraries that is emitted contains every library reachable from the requested ones exactly once, and each library appears after the libraries it includes.", "quantifier": "every acyclic include graph", "why_tests_cant": "Topological order over arbitrary graphs.", "anchors": ["src/mccode_antlr/translators/c.py:CInclude.__lt__,sort_include_hierarchy,_handle_raw_c_include"]}
{"id": "C39", "title": "The generated trace loop executes components in instrument order", "statement": "For every instrument without jumps and groups and every particle the generated trace loop executes the components in instrument order, each exactly once, stopping at the first one that absorbs the particle, and terminates.", "quantifier": "every instrument length, every component behaviour (any function on particles), every WHEN condition", "why_tests_cant": "A statement about the generated program for arbitrary instruments and behaviours.", "anchors": ["src/mccode_antlr/translators/c_raytrace.py:cogen_raytrace"]}
{"id": "C40", "title": "GROUP means exclusive alternatives", "statement": "In the generated trace loop, members of a group are tried in order on the same incoming particle until one scatters it; then the remaining members are skipped; if none scatters it the particle is absorbed.", "quantifier": "every group, every member behaviour and every incoming particle", "why_tests_cant": "Arbitrary group sizes and behaviours.", "anchors": ["src/mccode_antlr/translators/c_raytrace.py:cogen_raytrace", "src/mccode_antlr/instr/group.py"]}
{"id": "C41", "title": "Jumps go to their target and iterated jumps repeat the stated number of times", "statement": "A conditional JUMP whose condition holds continues at its target component and otherwise with the next component; a JUMP ... ITERATE n returns to its target n times (n-1 after the first pass) and then continues, and the counter is ready for the next particle; the target index computed for a jump is the index of the named or relative component.", "quantifier": "every instrument with one jump, every particle history", "why_tests_cant": "Loop iteration counts over arbitrary n and particle sequences.", "anchors": ["src/mccode_antlr/translators/c_raytrace.py:cogen_raytrace", "src/mccode_antlr/translators/target.py:set_jump_absolute_targets"]}
{"id": "C42", "title": "CPU funnel and GPU-style trace agree", "statement": "The alternative (funnel) trace loop executes the same components on a particle as the ordinary trace loop.", "quantifier": "every instrument and particle", "why_tests_cant": "Equivalence of two generated programs.", "anchors": ["src/mccode_antlr/translators/c_raytrace.py:cogen_funnel,cogen_raytrace"]}
{"id": "C43", "title": "SPLIT conserves statistical weight and terminates", "statement": "A component with SPLIT n makes n copies of the particle whose weights add up to the original weight, and the trace loop terminates for every value of n.", "quantifier": "every n, every particle weight", "why_tests_cant": "All values of n including zero and negatives.", "anchors": ["src/mccode_antlr/translators/c_raytrace.py:cogen_raytrace"]}
{"id": "C44", "title": "Component macros are always undone", "statement": "The #define directives emitted ahead of a component's C block are exactly those removed by #undef after it, so no definition leaks into another component's code; and every emitted definition is balanced.", "quantifier": "every component type and section", "why_tests_cant": "All parameter lists of all components.", "anchors": ["src/mccode_antlr/translators/c_defines.py:cogen_parameter_define,cogen_parameter_undef", "src/mccode_antlr/translators/c_save.py", "src/mccode_antlr/translators/c_trace.py"]}
{"id": "C45", "title": "Text embedded in generated C strings survives", "statement": "Text that is embedded in a C string literal by the generator, read by C's rules, is the original text.", "quantifier": "every text", "why_tests_cant": "Every character in every context.", "anchors": ["src/mccode_antlr/common/utilities.py:escape_str_for_c,quote_escape", "src/mccode_antlr/translators/c_decls.py"]}
{"id": "C46", "title": "Compiler target options are not lost", "statement": "Updating a compile target with a dictionary changes exactly the options in the dictionary and keeps the others, and the compiler flags contain the options for MPI, OpenACC and NeXus exactly when requested.", "quantifier": "every target and every option dictionary", "why_tests_cant": "All subsets of options.", "anchors": ["src/mccode_antlr/compiler/c.py:CBinaryTarget"]}
{"id": "C47", "title": "Saving and loading keeps an instrument", "statement": "Loading a file written by save_hdf5 gives an instrument equal to the saved one: same order of components, same references, same values in every field.", "quantifier": "every instrument", "why_tests_cant": "Round trip over all instruments; long lists exercise key padding and ordering.", "anchors": ["src/mccode_antlr/io/hdf5.py"]}
{"id": "C48", "title": "Component definitions have unambiguous parameters", "statement": "After any history of parameter additions to a component definition no name is used by two parameters, whichever of DEFINE, SETTING and OUTPUT they come from, and copying a definition from another component gives the parameters of that component plus the added ones and replaces the sections that are given again.", "quantifier": "every finite history of additions", "why_tests_cant": "Invariant over unbounded histories.", "anchors": ["src/mccode_antlr/comp/comp.py:add_define,add_setting,add_output,parameter_name_used", "src/mccode_antlr/comp/visitor.py"]}
{"id": "C49", "title": "User particle variables are merged without clashes", "statement": "The particle structure generated for an instrument declares every USERVARS variable of the instrument and of its component types once, and two declarations that disagree are reported.", "quantifier": "every instrument", "why_tests_cant": "All pairs of declarations.", "anchors": ["src/mccode_antlr/translators/c.py:_determine_uservars", "src/mccode_antlr/translators/c_listener.py:CDeclarator.__eq__"]}
{"id": "C50", "title": "Interactive and file based placement agree", "statement": "The Assembler's interpretation of at/rotate arguments gives the same reference and angles as the file reader gives for the corresponding AT/ROTATED clause.", "quantifier": "every at/rotate argument", "why_tests_cant": "All argument shapes and references.", "anchors": ["src/mccode_antlr/assembler/assembler.py:_handle_at_rotate,_handle_rotate", "src/mccode_antlr/instr/visitor.py:visitOrientation,visitPlace"]}
{"id": "C51", "title": "Component lookup by name in generated code", "statement": "The generated name-to-index lookup gives, for every component of the instrument, its own 1-based index, and -1 for any other text.", "quantifier": "every instrument and every text", "why_tests_cant": "All names.", "anchors": ["src/mccode_antlr/translators/c_macros.py"]}
{"id": "C52", "title": "Angles recovered from a rotation describe that rotation", "statement": "axes_euler_angles, which Instr.split uses to re-write a component's ROTATED clause as absolute, returns angles from which the generated C code builds exactly the rotation they were read from.", "quantifier": "every rotation matrix, and every component of every instrument", "why_tests_cant": "A statement over all rotation matrices, including the degenerate ones where the angles are not unique.", "anchors": ["src/mccode_antlr/instr/orientation.py:axes_euler_angles,atan2_value,cos_from_sin_value", "src/mccode_antlr/instr/instr.py:split"]}
{"id": "C53", "title": "Expressions in instrument text mean what they mean in C", "statement": "An expression written in an instrument or component file is read with the precedence and associativity that the C language gives the same text, so that its value is what an author familiar with C (and with the original McStas, which pasted the text into C) expects.", "quantifier": "every expression text", "why_tests_cant": "Two readers must agree on every text; which pairs of operators are ordered differently only shows in particular combinations.", "anchors": ["src/grammar/McCommon.g4:expr", "src/mccode_antlr/common/visitor.py"]}
{"id": "C54", "title": "Splitting at an MCPL file", "statement": "mcpl_split replaces the named component by a writer at the end of the first part and a reader at the start of the second; writer and reader stand where the component stood, use the same file through one instrument parameter, and all other components are kept.", "quantifier": "every instrument, split point, file name and choice of components and parameters", "why_tests_cant": "Quantifies over all instruments and argument combinations, and over repeated splitting.", "anchors": ["src/mccode_antlr/instr/instr.py:mcpl_split,split,make_instance,add_parameter"]}
{"id": "C55", "title": "Parameter values reach the component structure", "statement": "The generated set-up function of a component instance stores, in the member of every SETTING parameter, the value given to the instance or else the default of the component type, and the items of DECLARE initialisers in the elements of their arrays.", "quantifier": "every component type and instance: numbers, texts, vectors, initialiser lists and expressions", "why_tests_cant": "Many combinations of declared type, default and given value choose between different generated statements; each has to be followed to what the C program then holds.", "anchors": ["src/mccode_antlr/translators/c_initialise.py:parameter_line,cogen_comp_setpos", "src/mccode_antlr/translators/c_decls.py:158-176", "src/mccode_antlr/common/expression.py:Value,Expr"]}
{"id": "C56", "title": "Symbolic values of variables set in INITIALIZE", "statement": "evaluate_c_defined_variables, given a block of simple assignments and expressions for some known variables, returns for every requested variable an expression whose value is the one the variable has in C after the block has run.", "quantifier": "every sequence of assignments, every set of known values and every state in which the known values hold", "why_tests_cant": "Symbolic execution has to agree with concrete execution in every state; re-assignment, substitution, simplification and member access interact.", "anchors": ["src/mccode_antlr/translators/c_listener.py:EvalCVisitor,evaluate_c_defined_variables,evaluate_c_defined_expressions", "src/mccode_antlr/common/visitor.py"]}
{"id": "C57", "title": "Literals keep their value", "statement": "A number or text written literally in an instrument or component file has, in the generated C, the value that C gives to the same characters.", "quantifier": "every integer, floating point and string literal the grammar accepts, and adjacent string literals", "why_tests_cant": "The set of literals is infinite and passes through Python's int, float, strip and str; a failing conversion silently keeps the text.", "anchors": ["src/grammar/c99.g4", "src/mccode_antlr/common/visitor.py:visitExpressionInteger,visitExpressionFloat,visitExpressionString", "src/mccode_antlr/common/expression.py:Value.int,Value.float"]}
{"id": "C58", "title": "A written instrument file is read again as the same instrument", "statement": "The text that Instr.to_file writes, read as an instrument file, gives an instrument with the same name, parameters, metadata, flags, blocks of C and component instances.", "quantifier": "every instrument: names, expressions, blocks of C, units, metadata, flags and the comment in front are arbitrary texts within the stated conditions", "why_tests_cant": "The writer joins pieces of text and the reader cuts them into tokens again; whether two pieces touch and become one word, or a piece of free text ends a comment or a block early, depends on combinations of optional parts.", "anchors": ["src/mccode_antlr/instr/instr.py:Instr.to_file", "src/mccode_antlr/instr/instance.py:Instance.to_file", "src/mccode_antlr/common/textwrap.py:TextWrapper", "src/mccode_antlr/instr/visitor.py", "src/grammar/McInstr.g4", "src/grammar/McCommon.g4"]}
{"id": "C59", "title": "Variables of a DECLARE section become members of the parameter structure", "statement": "Every variable declared in the DECLARE section of a component type becomes one member of its parameter structure, in order, with the same type, name and number of elements that C gives the declaration.", "quantifier": "every list of declarations: names, pointers, arrays with given or omitted sizes, nested initialisers and pointers to functions", "why_tests_cant": "Declarations are nested and of unbounded length; the member is put together from pieces of text that are cut out by searching and replacing, so failures depend on which texts occur inside which.", "anchors": ["src/mccode_antlr/translators/c_listener.py:DeclaresCVisitor,CDeclarator,CFuncPointer,extract_initializer_size", "src/mccode_antlr/translators/c_decls.py:179"]}
{"id": "C60", "title": "The table of instrument parameters", "statement": "The table mcinputtable of the generated C has one row for every instrument parameter, in order, from which C reads the name, the member of the parameter structure, the type, the default value and the unit that the instrument file gives.", "quantifier": "every list of parameters with arbitrary names, units and default values within the stated conditions", "why_tests_cant": "Units and default values are arbitrary text placed between quotes that may already be there; every combination of quotes has to be followed to what C reads.", "anchors": ["src/mccode_antlr/translators/c_decls.py:instrument_parameters_table", "src/mccode_antlr/common/expression.py:mccode_c_type_name", "src/mccode_antlr/instr/visitor.py:54-75"]}
{"id": "C61", "title": "Reaching the members of a particle by name", "statement": "The functions of the generated C that read, write, restore and initialise members of the particle by name or number reach exactly the member of that name: reading gives the number stored, writing changes this member and no other, restoring takes back the state and nothing else, and new particles hold the initial values of the user variables.", "quantifier": "every list of user variables of any type, every layout of the structure, every memory and every name", "why_tests_cant": "Which bytes are read or written depends on the types of all user variables and on the layout of the structure; the wrong ones are often zero in a test.", "anchors": ["src/mccode_antlr/translators/c_header.py:20-86,133-262", "src/mccode_antlr/translators/c_particle.py", "src/mccode_antlr/translators/c_macros.py:21-35"]}
{"id": "C62", "title": "Blocks run at their time, once for every instance", "statement": "The generated functions init, save, finally and display run the blocks of the instrument and of its components in the documented order, the blocks of a component type once for every instance of it, and free what they allocated.", "quantifier": "every instrument: any number of instances, types, blocks and vector parameters", "why_tests_cant": "The program that is run is text spread over functions that are called by constructed names; that each name finds the right function and no block is lost or repeated has to hold for all instruments.", "anchors": ["src/mccode_antlr/translators/c_initialise.py:cogen_initialize,cogen_comp_initialize_class", "src/mccode_antlr/translators/c_save.py", "src/mccode_antlr/translators/c_finally.py", "src/mccode_antlr/translators/c_display.py"]}
{"id": "C63", "title": "The text of a monitor file is read as the file that was written", "statement": "Writing a monitor file and reading the text gives back its kind, variables, data, parameters and the keys of its kind, and writing that again gives the same text; what comes out of combining files can be written and read, so that the file written for several files holds the sums.", "quantifier": "every monitor file with values on one line, any number of parameters and keys, tables of any size, any printing and reading of numbers in which a number is read as printed", "why_tests_cant": "The text holds arbitrary values between separators that may occur in them, and the tables are transposed or not by comparing their size with the number of variables; the failing sizes and characters are few.", "anchors": ["src/mccode_antlr/loader/datfile.py:DatFileCommon.from_filename", "src/mccode_antlr/loader/datfile.py:DatFileCommon.to_filename", "src/mccode_antlr/loader/datfile.py:read_mccode_dat", "src/mccode_antlr/loader/datfile.py:write_combined_mccode_dats"]}
{"id": "C64", "title": "Items and axes of a monitor file", "statement": "Asking a monitor file for a name gives the row of the variable of that name, else the parameter, else the key; its axes have the lengths of the data, the labels, units and limits of the header, and equally spaced boundaries around bin centres running from limit to limit.", "quantifier": "every monitor file, every name, every number of bins and all limits", "why_tests_cant": "Names of variables, parameters and keys may coincide in every combination, and the boundaries must be right for all numbers of bins and limits.", "anchors": ["src/mccode_antlr/loader/datfile.py:58-69", "src/mccode_antlr/loader/datfile.py:dim_metadata", "src/mccode_antlr/loader/datfile.py:110-111,151-153,197-200"]}
{"id": "C65", "title": "A compiled instrument is started with the options, directory and parameters that were given", "statement": "Each run of a binary gets, as separate words the program understands, its directory, exactly the run time options that were given and the parameters, in order; a scan starts one run per point with the same options, in its own directory.", "quantifier": "every dictionary of options, every list of parameters, every target, number of points and directory", "why_tests_cant": "Options pass through two dictionaries, a text and a splitting at blanks; which are lost depends on their names and on characters of their values.", "anchors": ["src/mccode_antlr/run/runner.py:regular_mccode_runtime_dict", "src/mccode_antlr/run/runner.py:mccode_runtime_dict_to_args_list", "src/mccode_antlr/run/runner.py:mccode_run_scan", "src/mccode_antlr/run/runner.py:mccode_run_compiled"]}
{"id": "C66", "title": "The command line compiles the instrument named and runs it as asked", "statement": "Given an instrument file, the command line program compiles it for the target asked for and runs that binary once per point with the options asked for; the results are found by the names of the files.", "quantifier": "every command line, every content of the disk, any compiler", "why_tests_cant": "The outcome depends on which files exist with which permissions, and on combinations of options of which tests try few.", "anchors": ["src/mccode_antlr/run/runner.py:mccode_run_cmd", "src/mccode_antlr/run/runner.py:mcstas_run", "src/mccode_antlr/compiler/c.py:_compile_instrument", "src/mccode_antlr/compiler/c.py:run_compiled_instrument"]}
{"id": "C67", "title": "The table of metadata in the C source holds what the files say", "statement": "C reads the table of metadata of a generated program as one element for each of the collected metadata, in their order, with the source, name, type and text of the file, then an empty element; the number of elements is num_metadata.", "quantifier": "every instrument with any number of metadata of any texts", "why_tests_cant": "Names, types and texts are arbitrary characters written between quotes in C; the characters that break the table or change a text are not those of tests.", "anchors": ["src/mccode_antlr/translators/c_decls.py:80-89", "src/mccode_antlr/common/metadata.py:46-54", "src/mccode_antlr/instr/visitor.py:48-52,145-150,333-339", "src/mccode_antlr/comp/visitor.py:229-234"]}
{"id": "C68", "title": "No name is declared twice in the generated C source", "statement": "For an instrument with distinct names of types and instances, the types, variables, functions and structures that the generated C source declares have distinct names, and so have the members that control SPLIT and GROUP.", "quantifier": "every instrument: any number of component types and instances with any names", "why_tests_cant": "The names are put together from names of the user and fixed parts; which combinations meet is a question about all pairs of names.", "anchors": ["src/mccode_antlr/translators/c_decls.py:component_type_declaration", "src/mccode_antlr/translators/c_decls.py:component_instance_declaration", "src/mccode_antlr/translators/c_decls.py:30-59", "src/mccode_antlr/translators/c_initialise.py:181"]}
{"id": "C69", "title": "An included instrument file counts like its text in place", "statement": "Reading an instrument file that includes others with %include gives the instrument that results from the one text in which the TRACE items of the included files, without REMOVABLE instances, stand in place of the line: the same instances, references, parameter values, parameters (the first of a name), metadata (the last of a name) and blocks of C.", "quantifier": "every nesting of included files with any number of parameters, blocks, metadata, instances and references", "why_tests_cant": "Instances are looked up in two lists while the included file is read and are joined later; equality with one text is a statement about all sequences and all nestings.", "anchors": ["src/mccode_antlr/instr/visitor.py:visitInstrument_trace_include", "src/mccode_antlr/instr/visitor.py:visitComponent_ref", "src/mccode_antlr/instr/visitor.py:visitExpressionPrevious,visitExpressionMyself", "src/mccode_antlr/instr/instr.py:add_parameter,add_metadata,add_component"]}
{"id": "C70", "title": "Both ways of reading an instrument keep its flags and registries", "statement": "parse_mccode_instr and Reader.get_instrument give the same instrument; its flags are the DEPENDENCY strings of the instrument and of all component types that it uses, and its registries are those given and those that SEARCH lines add.", "quantifier": "every instrument file, every list of registries, whatever reading a component type adds", "why_tests_cant": "What is kept depends on the order of all the component types and SEARCH lines that were read.", "anchors": ["src/mccode_antlr/loader/loader.py:parse_mccode_instr", "src/mccode_antlr/reader/reader.py:get_instrument,handle_search_keyword,add_c_flags", "src/mccode_antlr/instr/visitor.py:visitDependency,visitSearchPath"]}
{"id": "C71", "title": "The flags of dependencies reach the compiler, keywords put in", "statement": "Each DEPENDENCY string of an instrument and of its component types reaches the compiler once, with every @\u2026FLAGS@ keyword put in for the configured flags of that name or the library of that name, the other text unchanged, and the command is the same for the same instrument.", "quantifier": "every text with any number of keywords, every configuration, every set of dependencies, every order in which a set can be gone through", "why_tests_cant": "Keywords are replaced one name after the other in the whole text; a test has a few strings and one configuration, and sees one order of a set.", "anchors": ["src/mccode_antlr/instr/instr.py:_replace_keywords,unique_flags,decoded_flags", "src/mccode_antlr/comp/visitor.py:visitDependency", "src/mccode_antlr/instr/visitor.py:visitDependency", "src/mccode_antlr/compiler/c.py:linux_split_flags"]}
{"id": "C72", "title": "A component has the parameters that it declares", "statement": "Each form of declaration in the parameter lists of a component definition gives a member of the declared C type, and an instance that leaves the parameter out has the declared default in the running program.", "quantifier": "every list of declarations, every instance without own values, every initial contents of the members", "why_tests_cant": "A declaration passes through the visitor, the parameter object, the structure and the generated assignments; only the last of these can be seen in C.", "anchors": ["src/mccode_antlr/comp/visitor.py:visitComponentParameterDouble,visitComponentParameterInteger,visitComponentParameterString,visitComponentParameterVector,visitComponentParameterIntegerArray", "src/mccode_antlr/common/visitor.py:visitExpressionIdentifier,visitInitializerlist", "src/mccode_antlr/translators/c_initialise.py:cogen_comp_setpos"]}
{"id": "C73", "title": "Parameters and particle variables added in Python are what was given", "statement": "Assembler.parameter and parameters add parameters of the given names, units, values and types, without changing those there are; what is written for them is read as the same parameter; ensure_user_var leaves exactly one declaration of the variable.", "quantifier": "every sequence of calls, every set of parameters there are, every name, unit, number and text, every reading of C declarations", "why_tests_cant": "The unit and the value can be given in several forms, and the effect of a wrong one is seen only in the written file or the generated C; a test tries a few.", "anchors": ["src/mccode_antlr/assembler/assembler.py:Assembler.parameter,Assembler.parameters,Assembler.ensure_user_var", "src/mccode_antlr/common/parameters.py:InstrumentParameter.parse,InstrumentParameter.to_file", "src/mccode_antlr/common/expression.py:Value.best"]}
{"id": "C74", "title": "A component made with COPY is like its original except for what is stated", "statement": "COMPONENT b = COPY(a) has the type of a; each parameter, WHEN, GROUP, EXTEND, JUMP and metadata entry is the one stated for b or else the one a has; a itself and all other components stay as they are; a jump goes to the component the text names or counts to from the component that has the jump; made names are new.", "quantifier": "every list of COMPONENT statements, every chain of copies, every component definition, every test of values", "why_tests_cant": "Copies of copies and statements that replace, keep or clear what was copied combine without bound; shared objects show only when the translator changes them.", "anchors": ["src/mccode_antlr/instr/visitor.py:McInstrVisitor.visitComponent_instance,McInstrVisitor.visitInstanceNameCopyIdentifier", "src/mccode_antlr/instr/instance.py:Instance.from_instance,Instance.EXTEND,Instance.JUMP,Instance.add_metadata", "src/mccode_antlr/translators/target.py:TargetVisitor.set_jump_absolute_targets"]}
{"id": "C75", "title": "The configured header has the right values in place of its keys", "statement": "The runtime header in the C source is the file of the first registry that knows it, in which each @MCCODE_NAME@ is replaced by the value for NAME (version, version number, date and description of the library, or what the user configured) and nothing else is changed; version numbers order like versions; embedded files are unchanged.", "quantifier": "every header text, every set of registries, every configuration, every sequence of translations in one session", "why_tests_cant": "Where keys begin and end in arbitrary text, and which of several registries and configuration sources supplies a value, cannot be enumerated; state left by an earlier translation shows only in sequences.", "anchors": ["src/mccode_antlr/translators/target.py:TargetVisitor.configure_file,TargetVisitor.embed_file,TargetVisitor.locate", "src/mccode_antlr/config/__init__.py:registry_defaults"]}
{"id": "C76", "title": "SEARCH puts the described place in front of all others, once", "statement": "A text in one of the four documented forms (directory; name and directory; name, URL and file; name, URL, version and file) puts the registry it describes in front of all registries, unless one of that place is there already; later ones come before earlier ones; SEARCH in an instrument file does the same with its text, and SEARCH SHELL with each line a command prints.", "quantifier": "every text, every file system, every list of registries, every shell, every sequence of SEARCH statements", "why_tests_cant": "The effect depends on words, quotation marks, line ends, what exists on disk and what was searched before; the combinations are unbounded and tests use one temporary directory.", "anchors": ["src/mccode_antlr/reader/registry.py:registry_from_specification,registries_match", "src/mccode_antlr/reader/reader.py:Reader.handle_search_keyword", "src/mccode_antlr/instr/visitor.py:McInstrVisitor.visitSearchPath,McInstrVisitor.visitSearchShell,McInstrVisitor.visitShell"]}
{"id": "C77", "title": "The management commands change and remove what they name", "statement": "Reading a setting gives the value of the first source that has it; setting one changes that setting and no other; saving and starting again changes no setting; list shows every key once; cache removal deletes exactly the named directory and only after a yes; cache list names every cache once in order.", "quantifier": "every list of sources and every tree of settings, every key, every file system, every name, version and answer", "why_tests_cant": "Settings come from any number of nested sources and the names, keys and answers are arbitrary texts; what a later command sees depends on all that came before, and tests do not start the program several times.", "anchors": ["src/mccode_antlr/cli/management.py:config_list,config_get,config_set,config_unset,config_save,cache_remove,cache_list", "src/mccode_antlr/config/__init__.py"]}
{"id": "C78", "title": "The parameters of an instrument file can be read without the rest of it", "statement": "Reading only the parameters of an instrument file gives the parameters that reading the whole file gives: for each declaration in order its name, unit, type and the value of its default; it needs no component or included file.", "quantifier": "every parse tree of an instrument file: every list of declarations, every expression, every trace section", "why_tests_cant": "The visitor that reads only the parameters also visits every expression in the rest of the file; whether that works depends on all expressions, which are unbounded, and the tests read one file of numbers.", "anchors": ["src/mccode_antlr/loader/loader.py:parse_mccode_instr_parameters", "src/mccode_antlr/instr/visitor.py:InstrParametersVisitor,InstrVisitor", "src/mccode_antlr/common/visitor.py"]}
{"id": "C79", "title": "A command reads the files its command line says, in that order, and does not overwrite them", "statement": "A component is read from the first directory given with -I that has it, then from the working directory, then from the distribution; an instrument file that exists is read, otherwise the file of that name in the first registry that knows it, and the text read is that of the file it is said to come from; libraries come from where their component comes from; without -o the output is not the input.", "quantifier": "every list of directories and registries with any files, every name, every state of the disk", "why_tests_cant": "Which file answers a request depends on all files of all directories and registries and on the order of the searches, which tests cannot range over.", "anchors": ["src/mccode_antlr/cli/commands.py:mccode", "src/mccode_antlr/run/runner.py:mccode_run_cmd", "src/mccode_antlr/reader/reader.py:Reader.get_instrument", "src/mccode_antlr/loader/loader.py:ensure_registry,parse_mccode_instr", "src/mccode_antlr/translators/target.py:TargetVisitor.locate", "src/mccode_antlr/reader/registry.py:InMemoryRegistry.add_instr"]}
{"id": "C80", "title": "The HTML view of an instrument shows the text of the instrument", "statement": "What a browser shows of the HTML view of an instrument is, up to blanks and line breaks, the text that the instrument is written as: every parameter, instance, block and expression, with all its characters.", "quantifier": "every instrument with any names, values, expressions and C code, every list of registries", "why_tests_cant": "The view mixes markup with text of the user; whether a character is taken for markup depends on what stands around it, for which there are infinitely many cases.", "anchors": ["src/mccode_antlr/instr/instr.py:Instr._my_repr_html_,Instr.to_file", "src/mccode_antlr/common/textwrap.py:HTMLWrapper", "src/mccode_antlr/instr/instance.py:Instance.to_file", "src/mccode_antlr/instr/jump.py:Jump.to_file", "src/mccode_antlr/common/metadata.py:MetaData.to_file", "src/mccode_antlr/common/parameters.py:InstrumentParameter.to_file"]}
{"id": "C81", "title": "The version of the component libraries is the one asked for, latest the newest there is", "statement": "The tag of the component libraries is the tag of the configuration if the repository has it, the first that git lists (the newest) if the configuration says latest, and an error otherwise; all three libraries and their lists of files are of that version, and files of different versions, libraries or names are kept at different places.", "quantifier": "every text that git prints, every list of tags, every configuration and every file name", "why_tests_cant": "Tags are found by searching a text with a pattern; which parts of a text match depends on everything around them, and the texts are made elsewhere and change with time.", "anchors": ["src/mccode_antlr/reader/registry.py:_mccode_pooch_registries,GitHubRegistry.__init__"]}
{"id": "C82", "title": "A component has the category that its file states, else that of its directory; instances are found by category", "statement": "The category of a component is the one stated in its file, for a COPY without one that of the original, and otherwise the first directory of its name in the registry that serves it (UNKNOWN for local files); asking an instrument for a category gives the names of exactly the instances of that category, in order.", "quantifier": "every list of registries of any kind, every component name and file, every instrument and category", "why_tests_cant": "The category depends on which registry serves the file, on its listed name and on chains of COPY; tests use single registries of one kind.", "anchors": ["src/mccode_antlr/reader/reader.py:Reader.add_component", "src/mccode_antlr/comp/visitor.py:CompVisitor.visitCategory,CompVisitor.visitComponentDefineCopy", "src/mccode_antlr/instr/instr.py:Instr.get_component_names_by_category"]}
{"id": "C83", "title": "An instrument is compiled only by a compiler that has been tried, and the binary returned exists", "statement": "compile_instrument first compiles a trivial instrument with the compiler and flags of the target, once per process, and refuses if that fails; the path it returns is that of an existing file, which either was there and was not to be replaced or was made by the command of this instrument and target; without an output it is the name of the instrument with the suffix of the system in the current directory.", "quantifier": "every history of configurations, installed programs, files and compilations, any behaviour of the programs", "why_tests_cant": "The result of a trial is kept for the rest of the process; tests run with one compiler, one configuration and a fresh directory.", "anchors": ["src/mccode_antlr/compiler/check.py:simple_instr_compiles,compiles,compiled,check_for_mccode_antlr_compiler", "src/mccode_antlr/compiler/c.py:compile_instrument,_compile_instrument,compile_acc_instrument,compile_mpi_instrument,compile_c_instrument"]}
{"id": "C84", "title": "The report of a syntax error shows the line in question above a mark at its column", "statement": "When parsing fails, the messages show the line with the error, with up to four lines before it, directly above a mark whose ^ is in the column of the error, and up to two lines after it.", "quantifier": "every source and every place in it", "why_tests_cant": "The lines are cut with computed slices whose bounds can be negative; tests do not look at log messages.", "anchors": ["src/mccode_antlr/reader/reader.py:make_reader_error_listener", "src/mccode_antlr/translators/c_listener.py:make_error_listener"]}
{"id": "C85", "title": "A value or range on the command line means the number, range or text that was written", "statement": "A decimal number given for a parameter is that number, an int exactly without fraction and exponent; start:step:stop and start:stop are the ranges they say, refused exactly if they end where they start or have no step; any other text is handed on as it is; what is handed on to a run is read again as the same.", "quantifier": "every decimal number, every range and every text", "why_tests_cant": "Texts are tried as int, then as float, then as text, and Python accepts more as a number than people write as one.", "anchors": ["src/mccode_antlr/run/range.py:MRange.from_str,Singular.from_str,_MRange_or_Singular"]}
{"id": "C86", "title": "The code of a component type stands in the C source once, whole and translated, however many instances use it", "statement": "Each component type that an instrument uses has its structure, its SHARE code and its functions in the C source exactly once, in the order of first use, with all of its code translated; translating again writes the same; the text of the components does not change.", "quantifier": "every instrument, every set of component types with any code, any translation of code blocks", "why_tests_cant": "Types are told apart by comparing all their fields, which the translation changes; the outcome depends on which instances share an object and on earlier translations.", "anchors": ["src/mccode_antlr/instr/instr.py:Instr.component_types,Instr.make_instance", "src/mccode_antlr/translators/c.py:CTargetVisitor.__post_init__", "src/mccode_antlr/translators/c_decls.py:component_share_declarations"]}
{"id": "C87", "title": "An executable made with --source carries the text that its instrument was read from", "statement": "If embedding of the instrument file is asked for, the executable holds the text that the instrument was read from, as it is; otherwise it says from which file the instrument is and no file is read; a main function is defined exactly if it was not declined.", "quantifier": "every instrument file with any text, every configuration, every state of the files between reading and translating", "why_tests_cant": "The text goes through Python's newline rules, an escape and the rules of C strings, and which file is read depends on how the instrument was made and on what happened to the file since.", "anchors": ["src/mccode_antlr/translators/c_header.py:header_post_runtime", "src/mccode_antlr/loader/loader.py:parse_mccode_instr,load_mccode_instr", "src/mccode_antlr/reader/reader.py:Reader.get_instrument"]}
{"id": "C88", "title": "The axis and the angle given for a rotation describe it", "statement": "For a constant rotation the axis and the angle that rotation_axis_angle gives turn every vector as the rotation turns coordinates, and replacing a part by its specialization keeps what it does to every point.", "quantifier": "every rotation matrix and every choice that the eigenvalue routine can make", "why_tests_cant": "The sign of an eigenvector is not determined; the code guesses it from signs of entries, and whether the guess is right depends on axis and angle together.", "anchors": ["src/mccode_antlr/instr/orientation.py:Part.rotation_axis_angle,Part.specialization,Part.is_rotation"]}
{"id": "C89", "title": "Registries are equal exactly if they are the same place, and the C library is among those of a translated instrument once", "statement": "Comparing registries never raises and says that they are equal exactly if they are the same directory or the same address, whatever the order of comparison. The translator searches the registries of the instrument by priority and the C library, which is added exactly if it is not among them, and warns of each library that is too old.", "quantifier": "all lists of registries of all classes", "why_tests_cant": "Equality goes through three methods of six classes and the rules of Python about which method is asked first; whether the library is added twice or not at all depends on it.", "anchors": ["src/mccode_antlr/reader/registry.py:RemoteRegistry.__eq__,LocalRegistry.__eq__,ordered_registries", "src/mccode_antlr/translators/c.py:CTargetVisitor.__post_init__", "src/mccode_antlr/loader/loader.py:ensure_registry"]}
{"id": "C90", "title": "What a reader says about a file agrees with what it gives", "statement": "Reader.known, contain and unique, and Registry.search and match, agree with reading: a file is known exactly if some registry knows it, the first registry that contains it provides the text, a unique name gives the one file that has it, and every name that a search finds can be read.", "quantifier": "all lists of registries, names and regular expressions", "why_tests_cant": "The four questions are answered by separate code for each class of registry, by ends, parts or whole names; agreement must hold for all lists of files.", "anchors": ["src/mccode_antlr/reader/reader.py:Reader.known,Reader.unique,Reader.contain,Reader.stream", "src/mccode_antlr/reader/registry.py:Registry.search,Registry.match,filenames,unique"]}
{"id": "C91", "title": "A copy of an instrument, and each part of a split one, stand on their own", "statement": "Instr.copy gives the components asked for, each showing all that the original one does, and Instr.split leaves the instrument as it was. What is done afterwards to a copy or a part, by assigning to its components or by translating it to C, is not seen in the original, and what is done to the original is not seen in it.", "quantifier": "all instruments, ranges, split points and sequences of assignments", "why_tests_cant": "Which objects two instruments share shows only in later changes to one of them; all sequences of changes to all instruments cannot be tried.", "anchors": ["src/mccode_antlr/instr/instr.py:Instr.copy,Instr.split", "src/mccode_antlr/instr/instance.py:Instance.copy,Instance.__post_init__", "src/mccode_antlr/translators/target.py:set_jump_absolute_targets"]}
{"id": "C92", "title": "The C program takes exactly the instrument parameters for instrument parameters", "statement": "Wherever an expression of a component instance names an instrument parameter, in the value of a parameter, in AT, ROTATED, SPLIT, WHEN or JUMP, the generated C program uses the value that was set for it at run time, and every other name is left as it is; this holds for instruments read from files, with the files they include, and for those put together with an Assembler, in whatever order.", "quantifier": "all expressions, instrument files with includes, and sequences of additions to an Assembler", "why_tests_cant": "Whether a name is marked depends on when and where it was read; a missing mark shows only when the C program is compiled, for the expressions that were tried.", "anchors": ["src/mccode_antlr/common/visitor.py:visitExpressionIdentifier,visitExpressionStructAccess", "src/mccode_antlr/instr/instr.py:Instr.verify_instance_parameters,Instr.check_expr", "src/mccode_antlr/instr/instance.py:Instance.verify_parameters", "src/mccode_antlr/common/expression.py:Value.special_str,Value.verify_parameters,Expr.parse,Value.best", "src/mccode_antlr/assembler/assembler.py:Assembler.component"]}
