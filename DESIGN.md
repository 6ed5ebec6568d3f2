# Formal model of mccode-antlr: design and trusted base

Statements in English are in `properties.jsonl`, the list of theorems per property in `MANIFEST.json`, the seeded wrong programs in `seeded/LOG.jsonl`.

## Conventions

* Every definition that models code cites the file and lines in /repo it models. Definitions without a citation are specifications or proof tools.
* Python exceptions are values: `option` (None = an exception left the function) or a result type `Ok | Raise | Fuel`. Where the state an exception leaves behind matters (set_parameter, Assembler.component) the model returns the state and a flag.
* Loops are structural recursion, or recursion on explicit fuel with an error value of its own; theorems either give enough fuel or are about every amount.
* Numbers: expression constants, particle weights and monitor data are canonical rationals (`Qc`), scan ranges are rationals (`Q`), geometry and simulation statistics are the reals of Coq.Reals. Floating point rounding, overflow, infinities and NaN are absent.
* Text is Coq's `string` of 8-bit characters (Python text restricted to one byte per character); C45 uses lists of code points because it is about characters beyond that.
* Code that is foreign to the project or depends on the outside world is an arbitrary function (section variable, generalised when the section is closed; so every theorem is "for all" such functions): C code of components, coordinate changes, `when`/`jump` conditions, printing of floats, environment variables and shell commands, the content of files, construction of registries.
* A property that is false of the code gets a theorem `…_refuted` with its witness, and the strongest part that holds gets theorems of its own, suffixed `_partial` where the theorem by itself is a restriction of the claim.
* Beside the theorems stand `Example`s with concrete non-trivial inputs that meet the hypotheses.
* `status` in MANIFEST.json is `proved` if the claim of properties.jsonl is proved in full for the model, `partial` if part of it is refuted or a side condition remains.

## Model files

`Properties_*.v` hold the theorems; the other files hold the model, the independent specifications and the lemmas.

| file | code modelled | simplified or left out |
|---|---|---|
| PyStr.v | Python text operations: strip, split, partition, find, replace, in, startswith | one byte per character |
| Range.v | run/range.py:10-53 MRange | rationals for floats |
| Scan.v | run/range.py:95-190 Singular, parameters_to_scan; run/runner.py:52-55, 161-188 scan loop | printing of numbers arbitrary; launching of the binary is an entry in the list of runs |
| CmdLine.v | run/range.py:193-232, run/runner.py:58-73 | conversion of text to numbers arbitrary |
| Expr.v, ExprSem.v, ExprFacts.v, ExprTotal.v, ExprTags.v, ExprEq.v | common/expression.py: DataType, ObjectType, Op, TrinaryOp, BinaryOp, UnaryOp, Value, Expr: operators with every shortcut, neg, abs, round, as_type, simplify, evaluate, depends_on, in, equality, hash, verify_parameters. ExprSem.v is the independent meaning | values None and Python lists, shapes, arithmetic on two strings (raises in the model) |
| Print.v | printing of expressions (expression.py:187-192, 313-340, 413-447, 556-563, 800-830) and two readers: C precedence and grammar/McCommon.g4:39-68 with common/visitor.py | tokens instead of characters; the generated ANTLR parser is represented by the precedence rules of the grammar; the grammar alternative for texts also matches nothing, such empty operands are not read |
| Signs.v | common/visitor.py:12-16 with __neg__ and __pos__ of expression.py: what becomes of a sign before a sign | a negated text literal, for which Python raises, stays a negated text |
| Orient.v, Placement.v, Euler.v, SplitPlace.v | instr/orientation.py (Matrix, Rotation, Seitz, Part, Parts, Orient, angles), instr/instance.py:99-113, translators/c_initialise.py:38-99, coordinate changes of c_raytrace.py:59-70, instr.py:361-374 | matrix entries are the reals the expressions denote; the McCode run time functions rot_set_rotation, rot_mul, rot_apply, coords_* are modelled from their C definitions, which are not in this repository |
| EulerSymbolic.v | instr/orientation.py:334-386, 419-428, 654-658, 675-679; common/expression.py:244-261, 574-578, 842-885, 1357-1373: angles found where angles are parameters | an angle is a number or a name; of operations other than sin, cos and minus only the value is kept |
| InstrModel.v | instr/instr.py (add_component, get_component, last_component, add_parameter, metadata, determine_groups, copy, split, make_instance, parameter_used, check_instrument_parameters), instr/instance.py (set_parameter, get_parameter, parameter_used, collect_metadata), group.py | component types by name and parameters; references by name; orientation by the expressions in it |
| Mcpl.v | instr.py:394-456 mcpl_split | reader and InstrumentParameter.parse arbitrary |
| Setpos.v | translators/c_initialise.py:102-211 cogen_comp_setpos; translators/c_decls.py:158-176; attributes of Value and Expr (common/expression.py) | the lines as statements, not text; the meaning of stracpy, calloc and assignment is given by `step` (run time not in the repository); the Nexus branch and the position lines are left out |
| Visit.v | common/visitor.py:12-144 (McCommonVisitor); translators/c_listener.py:405-476 (EvalCVisitor, evaluate_c_defined_variables) | starts from the parse tree that Print.v reads; literals as numbers (see Literal.v); no MYSELF/PREVIOUS inside expressions (the visitor raises AttributeError there); Value objects are not shared, so a data type set on one result cannot show in another (EvalShare.v has the sharing); splitting the block at semicolons is not modelled |
| EvalShare.v | translators/c_listener.py:403-454 again, with the identity of Value objects (common/expression.py:613-617, 638-650, 693-695, 987-988, 1306-1310) | statements that assign a number or a variable, with + signs and brackets |
| Literal.v | grammar/c99.g4:4-15, 165-225; common/visitor.py:21-22, 44-48, 142-144; common/expression.py:738-756 and the constant branches of Value.__add__, __mul__, __neg__ for texts | texts as code points; doubles, rounding and str of a float arbitrary; int() of more than 4300 digits not modelled; raw strings not modelled |
| Lexer.v | grammar/c99.g4 and McCommon.g4:77-128: the tokens of instrument files (longest match, earlier rule on a tie) | one byte per character; raw strings, character literals, universal character names, quote marks between digits and lines with a hash sign give no result |
| ExprChars.v | expression.py:187-192, 319-323, 413-447, 556-563, 710-714: the characters of a printed expression | the text of a number is an arbitrary function |
| InstrChars.v | instr.py:36-76, instance.py:40-71 and 249-255, jump.py:13-22, parameters.py:12-30, metadata.py:42-43, textwrap.py:113-215; McInstr.g4:18-112, McCommon.g4:6-36 and instr/visitor.py:26-160, 209-347: the characters of a written instrument and their reader | component types are read as names (the component reader is Reader.v); SHELL, SEARCH, COPY and includes are not read |
| InstrCharsFacts.v | (lemmas for InstrChars.v) | none |
| Declares.v | c_listener.py:94-96, 171-209, 226-256, 321-363, c_decls.py:179: declarations of C variables and the members of the parameter structure | the parse tree is the input, texts of specifiers, sizes, arguments and initialisers are opaque; int() for decimal digits |
| ParamTable.v | c_decls.py:62-81, expression.py:973-985, 1294-1298: the table of instrument parameters | parameters as made by the reader of instrument files; decimal form of numbers arbitrary |
| Particle.v | c_header.py:20-86, 133-262, c_particle.py, c_macros.py:21-35: particle structure and access by name | sizes, layout, conversions and decoding of numbers arbitrary; initial values depend on their text only |
| Life.v | c_initialise.py:102-224, 227-323, c_save.py, c_finally.py:1-80, c_display.py: functions of the sections and their calls | blocks are opaque events; set-up functions reduced to allocation and placement; macros in CText.v |
| DatText.v | loader/datfile.py:25-69, 88-122, 151-165, 197-214, 236-248, 302-304: text of monitor files, items, axes | printing and reading of numbers arbitrary; keys and values texts |
| RunCmd.v | run/runner.py:6-55, 76-107, 150-188, 199-200, 229-294, 309-318; compiler/c.py:197-230, 279-316: options, commands, command line | argparse result as input; disk, reader and compiler arbitrary functions; runs succeed |
| MetaTable.v | common/metadata.py:45-54; instr/visitor.py:48-52, 145-150, 333-339; comp/visitor.py:229-234; translators/c_decls.py:80-89: metadata and their table in C | texts of code points below 256 |
| DeclNames.v | translators/c_decls.py:24-59, 74, 86-88, 118, 154-189, 202, 211; c_header.py:129-154; c_initialise.py:181, 245, 307; c_trace.py:114; c_raytrace.py:9, 167, 256; c_save.py:12, 54; c_finally.py:11, 64; c_display.py:22, 71: declared names | names only; names of the runtime library and of user code left out |
| InclMerge.v | instr/visitor.py:27-52, 77-157, 287-304, 354-355, 371-381; instr/instr.py:119-128, 174-198; common/block.py:14-17, 49-53; reader/reader.py:41-66, 138-175; loader/loader.py:17-27: included files and the two ways of reading | parse tree as input; an included file stands in place of its name; SHELL left out |
| Keywords.v | comp/visitor.py:136-139, instr/visitor.py:287-289, instr/instr.py:268-305, compiler/c.py:97-101: DEPENDENCY literals, keywords, flags | ASCII names; configured values as texts with environment variables put in; octal escapes of re.sub left out |
| CompParam.v | comp/visitor.py:42-44, 61-134, grammar/McComp.g4:58-73, common/visitor.py:36-42, 85-88, expression.py:1051-1079, comp/comp.py:42-67: the declared parameters of a component | an operation in a default is the visited node; OUTPUT parameters left out |
| AsmParam.v | assembler/assembler.py:93-153, common/parameters.py:6-45, expression.py:639-648, 771-779, 974-985: parameters and particle variables added in Python | units are texts or None; erroneous text is refused where the parser would repair it; reading of C declarations arbitrary |
| CopyInst.v | instr/visitor.py:109-173, 209-250, instr/instance.py:88-97, 111-153, 176-218, translators/target.py:219-230: COMPONENT statements with COPY, and shared jumps | placement and mode left out (Refs.v, InstrModel.v); tests and conversions of values arbitrary; one file at a time, with the instances of the including file |
| ConfigFile.v | translators/target.py:56-122, config/__init__.py:49-69, reader/registry.py:148-149, 306-307: the configured header and embedded files | configuration as a list of sources with text values; version parsing, registry text and date arbitrary; temporary files of as_file left out |
| Search.v | instr/visitor.py:349-362, reader/reader.py:51-63, reader/registry.py:401-459: SEARCH, SHELL, registry specifications | file system, URL test, shell, str.format and loading of lists arbitrary; of a registry only name, root, base URL and the texts it was made from |
| Manage.v | cli/management.py:10-64, 67-92, 95-123, 152-157, config/__init__.py:8-11, 72-80: configuration and cache commands | confuse as a list of sources, lists of values as leaves, printing as the tree printed, verbose notices and the long form of cache list left out, no links in the file system |
| InstrParams.v | loader/loader.py:9-14, instr/visitor.py:27-107, 371-435, common/visitor.py:5-144: both ways to read instrument parameters | the parse tree is the input; PREVIOUS and MYSELF are names with this spelling; a component instance is its name, its expressions and whether anything else stops the reading; an included file is the instrument read from it |
| SourceFiles.v | cli/commands.py:43-81, run/runner.py:267-283, reader/reader.py:143-175, loader/loader.py:17-35, reader/registry.py:366-374, translators/target.py:51-72: the files a command reads and writes | argparse and the reading of HDF5 are not modelled; resolve() of the path is not modelled; for the runner the checks that the file exists and is no executable are left out |
| HtmlView.v | instr/instr.py:36-117, common/textwrap.py:222-326, instr/instance.py:40-71 and 249-255, instr/jump.py:13-22, common/parameters.py:12-30 and 56-67, common/metadata.py:42-43, reader/registry.py:128-135 and 286-291: the HTML view | the frame of the page (title, style, script) is left out; the random identifiers are an arbitrary function; strip of parameter texts is left out |
| LibTag.v | reader/registry.py:462-487 and 219-263: choice of the version, places of lists and files | the text printed by git and the configuration are arbitrary texts; digits are ASCII; pooch is reduced to where it gets and keeps a file |
| Category.v | reader/reader.py:113-136, comp/visitor.py:27-44, instr/instr.py:163-172: the category of a component, the instances of a category | what a component file says is an arbitrary function of its text; the dictionary of components already read is left out |
| Compile.v | compiler/check.py:5-103 and compiler/c.py:175-276: the remembered trial of a compiler, the choice of the check, the compilation and the path of the binary | other systems than Windows; what programs do is arbitrary; making the source is not modelled; access rights left out |
| ErrorReport.v | reader/reader.py:10-36 and translators/c_listener.py:21-45: the messages for a syntax error | the line and the column are those given by antlr4; the heading with the file name is left out |
| RangeText.v | run/range.py:55-76, 125-139, 193-196: values and ranges from text | characters are ASCII; numbers are exact; the text of a float is given |
| TypeCode.v | instr/instr.py:207-211, 380-392, translators/c.py:142-156, 194-200, 253-258, 271-277, c_decls.py:91-114: component types and their code | what is read from translated code is left out; EXTEND code is left out |
| EmbedSource.v | translators/c_header.py:266-304, loader/loader.py:17-27, 48-49, reader/reader.py:143-175, assembler/assembler.py:15, cli/commands.py:52-59, run/runner.py:136-138: the instrument file in the executable | which file a name stands for is left to SourceFiles.v; the trace switch and the include macro are left out |
| AxisAngle.v | instr/orientation.py:63-69, 111-113, 317-319, 443-453, 460-490, 539-550, 632-634: axis and angle of a rotation, special parts | exact arithmetic; no rounding to 12 digits in is_rotation; eig is any vector of length one that the matrix keeps |
| SameRegistry.v | reader/registry.py:39-44, 116-122, 186-197, 200-262, 279-284, 345-352, 356-361, 396-398; translators/c.py:227-244; loader/loader.py:30-35: equality of registries, the registry of the C library | pooch.create is an arbitrary function; packaging.version.Version for digits and dots |
| Answers.v | reader/reader.py:97-111; reader/registry.py:9-15, 74-85, 183-184, 342-343, 376-377: known, unique, contain, stream; search | a regular expression is the set of places where it matches; no symbolic links |
| Copies.v | instr/instr.py:307-325, 347-378; instr/instance.py:99-110, 227-231; translators/target.py:219-230: copies of instruments, splits and the objects they share | objects are instances and jumps only; orientations are arbitrary values |
| ParamNames.v | common/visitor.py:12-140; instr/visitor.py:27-35, 80-106, 109-155; instr/instr.py:124-135, 489-501; instr/instance.py:155-160; assembler/assembler.py:23-105; common/expression.py:705-722, 771-779, 1044-1049; translators/target.py:31: which identifiers are marked as instrument parameters and written as such | operations are kept as written; an access names a member only; included files include no others; COPY is not modelled |
| Refs.v | instr/visitor.py:76-172, 253-285 | parse tree as input |
| Flags.v | instr.py:226-266 | environment, getpath and shell arbitrary |
| InstanceText.v | instance.py:40-71, 249-255, jump.py, metadata.py, the instance part of McInstr.g4 and of instr/visitor.py | token level |
| Raytrace.v, RaySpec.v, RayFacts.v, RayJumps.v, RayUnits.v, RaySplit.v, RaySplits.v, JumpTargets.v | translators/c_raytrace.py:1-163 (cogen_raytrace) and the per-particle part of cogen_funnel, target.py:201-230. The generator yields a small program, the program has a C-like meaning; RaySpec.v is the independent meaning | component code arbitrary; the random state is an arbitrary part of the particle; MPI and OpenACC absent; `_absorbed`, `_scattered` booleans |
| DatFile.v, DatFacts.v | loader/datfile.py: read/combine of monitor data | from the parsed header on; text in DatText.v |
| SimCombine.v | loader/simfile.py combine methods | numbers instead of their text |
| TextLines.v, SimText.v | loader/simfile.py to_file and parse | carriage returns are not translated |
| Registry.v, Stash.v, Reader.v | reader/registry.py, reader/reader.py lookup, cached listing, component cache | network and file system as given content; an interrupted write leaves a prefix |
| Includes.v | translators/c.py:11-140, 246-265, 326-372 | order of a Python set arbitrary |
| CText.v | common/utilities.py, translators/c_decls.py, c_defines.py, c_initialise.py, c_save.py, c_finally.py, c_display.py, c_trace.py, c_macros.py: macro definitions and string literals of the generated C | lines that define or undefine macros and the code blocks between them; the C preprocessor is modelled as a map of names |
| UserVars.v | translators/c.py:158-228, 280-285, c_listener.py:50-169 | the C declaration parser is not modelled: declarations are its result |
| CompDef.v | comp/comp.py, comp/visitor.py | parse tree as input |
| Target.v | compiler/c.py, run/runner.py:131-151, 209-283 | commands as lists of words; nothing is executed |
| Assembler.v | assembler/assembler.py:23-90 | check_expr arbitrary |
| Hdf5.v, Hdf5Facts.v | io/hdf5.py | a file is a tree of groups with attributes; floats an arbitrary type; h5py limits: 64-bit integers, no NUL |

## Properties

For each property: what is modelled and how the proof goes, the result, and the theorems. A theorem `…_refuted` proves that the claim is false of the model outside the stated side conditions; it contains the witness.

### C01 Expression arithmetic preserves value — proved

Trees over canonical rationals; `add_n`, `sub_n`, … follow the Python methods shortcut by shortcut. The meaning `sem` (ExprSem.v) is defined without them. Induction over pairs of trees.

Result: Value preservation for every pair of trees, totality for numeric trees, and whole formulas; an operation plus a plain Python number raising is recorded as a refutation.

Theorems (Properties_Expr.v): `C01_operators_preserve_value`, `C01_negation_preserves_value`, `C01_operators_defined`, `C01_formula_value`, `C01_formula_defined`, `C01_operation_plus_number_refuted`.

### C02 simplify() preserves value — proved

`simplify` as structural recursion; soundness and absence of new names by induction over trees.

Result: For every tree and assignment; also no new identifiers.

Theorems (Properties_Expr.v): `C02_simplify_preserves_value`, `C02_simplify_no_new_identifiers`.

### C03 Integer division and powers follow Python arithmetic — partial

The spec is Python arithmetic on rationals (floor, truncation-free division). Case analysis on the shortcuts of `Value.__floordiv__`, `__truediv__`, `__pow__`.

Result: Proved where the code agrees with Python; rounding instead of floor for divisors 1 and -1, 0**0, 0/0 and powers of operations are refuted.

Theorems (Properties_Expr.v): `C03_floor_division_partial`, `C03_floor_division_defined`, `C03_floor_division_by_one_refuted`, `C03_identifier_floor_one_refuted`, `C03_power_partial`, `C03_zero_power_refuted`, `C03_power_of_operation_refuted`, `C03_zero_divisor_reported`, `C03_zero_divisor_of_operation_reported`, `C03_zero_over_zero_refuted`, `C03_round_of_integer_typed_quotient_refuted`.

### C04 evaluate(known) is substitution — partial

Substitution lemma: the value of `evaluate known e` under an environment is the value of `e` under the environment extended by `known`; induction over trees.

Result: Proved for trees without struct members of a known name and without an Expr inside a Value; both exceptions refuted.

Theorems (Properties_Expr.v): `C04_evaluate_is_substitution_partial`, `C04_known_identifiers_disappear`, `C04_member_name_refuted`, `C04_second_evaluation_refuted`.

### C05 Dependence test is sound — partial

If `depends_on`/`in` says no, two environments that differ only in that name give equal values; induction.

Result: Proved for trees without an Expr inside a Value; that exception refuted by a reachable example.

Theorems (Properties_Expr.v): `C05_independent_is_constant_partial`, `C05_occurring_names_reported`, `C05_membership_sound`, `C05_hidden_dependence_refuted`.

### C06 Data type promotion is a join — proved

Data types as a four-element lattice; folds over lists; permutation invariance; the type a tree reports is the join over its leaves.

Result: Join laws, independence of order and brackets, and the type reported by operations.

Theorems (Properties_Expr.v): `C06_promotion_is_a_join`, `C06_order_and_brackets_do_not_matter`, `C06_reported_type`.

### C07 Printed expression re-reads as the same expression — partial

Printer to tokens; two deterministic readers (C precedence; grammar alternatives). The condition `tight` on unbracketed operands is proved sufficient by induction over trees with a continuation-style reader lemma. Two signs that touch are one token for C and for the lexer of instrument files (c99.g4:143-144), so a text that was read is printed after its double signs have been removed as the visitor removes them (Signs.v). The same for characters: the printed string, cut into tokens by the lexer of Lexer.v, gives the printed tokens (ExprChars.v), by induction over trees with the rest of the text as a parameter.

Result: Every tree whose unbracketed operands bind tight enough is read back with its value by C and by the instrument reader, and whatever was read from a file survives writing and reading, also as characters through the lexer; refuted: quotient by a product, powers, floor division, abs, comparison inside a sum, two signs, members named like a parameter.

Theorems (Properties_ExprText.v, Properties_Print.v): `C07_characters_read_back_partial`, `C07_read_write_read_characters`, `C07_c_reads_the_value_partial`, `C07_instrument_reads_the_value_partial`, `C07_read_write_read`, `C07_quotient_by_product_refuted`, `C07_after_evaluate_refuted`, `C07_power_refuted`, `C07_negative_power_refuted`, `C07_floor_division_refuted`, `C07_abs_refuted`, `C07_sum_of_comparison_refuted`, `C07_two_signs_refuted`, `C07_two_signs_after_evaluate_refuted`, `C07_member_named_like_parameter_refuted`.

### C08 Folding constants agrees with the generated C — partial

Spec: C arithmetic on machine integers (truncating division, overflow undefined). A constant tree whose steps stay in range and whose divisions are exact folds to the C value.

Result: Every constant tree in which no step overflows and every division is exact; every inexact division, negative floor division and round at a half refuted.

Theorems (Properties_Print.v): `C08_folding_agrees_partial`, `C08_division_refuted`, `C08_floor_division_refuted`, `C08_round_of_constant`, `C08_round_refuted`.

### C09 Expression equality is an equivalence that respects value — partial

`eqb_n` follows `__eq__`; reflexivity, symmetry, transitivity and equality of meaning by simultaneous induction; the hash is the printed text as in the code.

Result: Equivalence and value proved between trees with consistent labelling; symmetry between Expr and bare operation and equality of identifier and string refuted; equal expressions without sums and products have equal hashes, equal sums may not, and operations have none.

Theorems (Properties_Expr.v, Properties_Print.v): `C09_equality_is_an_equivalence_partial`, `C09_equal_means_same_value_partial`, `C09_expr_equality_symmetric`, `C09_symmetry_refuted`, `C09_same_value_refuted`, `C09_equal_expressions_hash_alike_partial`, `C09_equal_values_hash_alike`, `C09_equal_sums_hash_differently_refuted`, `C09_operations_have_no_hash_refuted`.

### C10 Instrument parameters are flagged exactly — proved

`verify_parameters` as relabelling; the spec says which leaves carry the parameter flag afterwards and that nothing else changed.

Result: Exact flags, skeleton, value, idempotence; identifiers inside a Value holding an Expr are missed (refuted).

Theorems (Properties_Expr.v): `C10_exactly_the_parameters_are_flagged`, `C10_nothing_else_changes`, `C10_value_kept`, `C10_idempotent`, `C10_flagged_iff_named`, `C10_hidden_identifier_refuted`.

### C11 Rotations built from angles are rigid — proved

Matrices over the reals; `from_angles` equals the product of three axis rotations; orthogonality and determinant one by trigonometric identities.

Result: Degrees and radian; equality with the run time matrix included.

Theorems (Properties_Orient.v): `C11_from_angles_orthogonal`, `C11_distances_preserved`, `C11_from_angles_matches_runtime`.

### C12 Single-axis rotation parts are rigid — partial

The table of special angles in `cos_value`/`sin_value` is modelled as it stands and compared with cos and sin.

Result: All constant angles in degrees but 180; the code is wrong at 180 degrees, for radian parts and for symbolic angles (three refutations).

Theorems (Properties_Orient.v): `C12_single_axis_parts_turn_partial`, `C12_single_axis_parts_rigid_partial`, `C12_angles_add_partial`, `C12_half_turn_not_rigid_refuted`, `C12_radian_parts_refuted`, `C12_symbolic_angle_refuted`.

### C13 Chains of parts compose — partial

Affine maps as independent meaning of chains; composition, concatenation, inverse and reduction by induction over chains.

Result: Composition and concatenation for every chain; inverse and reduce for chains without half turns; half turn and Orient.inverse refuted.

Theorems (Properties_Orient.v): `C13_resolve_composes`, `C13_concatenation_composes`, `C13_inverse_undoes_partial`, `C13_reduce_keeps_map_partial`, `C13_inverse_undoes_refuted`, `C13_orient_inverse_refuted`.

### C14 Python placement equals C placement — partial

The Python orientation and the generated C initialisation are two folds over the component list; a simulation invariant relates their states.

Result: Every instrument whose angles are not half turns and where ROTATED has a reference when AT has one; both exceptions refuted.

Theorems (Properties_Orient.v): `C14_placement_agrees_partial`, `C14_backward_references_are_placed`, `C14_absolute_rotation_refuted`, `C14_half_turn_refuted`, `C14_c_placement_rigid`.

### C15 A particle is presented to each component in that component's frame — partial

The relative transformations applied between components compose to the absolute transformation of the component called; induction over the list with the skipping rule of `detect_skipable_transforms`.

Result: Every instrument whose first component is not skipped or sits at the laboratory origin; the other case refuted.

Theorems (Properties_Orient.v): `C15_particle_in_component_frame_partial`, `C15_instrument_partial`, `C15_first_component_skipped_refuted`.

### C16 Component instance names stay unique — proved

Histories of calls as lists; invariant by induction.

Result: Uniqueness under every history of additions, exact effect of an addition, and lookup by name.

Theorems (Properties_Instr.v): `C16_names_stay_unique`, `C16_addition_effect`, `C16_lookup_by_name`, `C16_missing_name_raises`.

### C17 Instrument parameters stay unique, first definition wins — proved

Histories of `add_parameter`; the effective parameter is the first of its name.

Result: Every history; a repeated name is kept or refused as requested.

Theorems (Properties_Instr.v): `C17_parameters_stay_unique`, `C17_first_definition_wins`, `C17_repeat_is_an_error`.

### C18 Metadata: one entry per name, last writer wins — proved

Histories of `add_metadata`; at most one entry per name, the last one given; `collect_metadata` as described by the spec.

Result: Every history of metadata additions, on components, instances and the instrument.

Theorems (Properties_Instr.v): `C18_one_entry_last_writer`, `C18_entry_count`, `C18_instance_overrides_component`, `C18_instrument_collects_all`.

### C19 References always point backwards — partial

Reading of nested files as a fold over statements; every recorded reference names an earlier component.

Result: Every instrument that is read without error has only backward references, and a reference resolves to the component meant by the text when that component exists; unknown names, PREVIOUS(0) and PREVIOUS(n) beyond the start are accepted (three refutations).

Theorems (Properties_Refs.v): `C19_references_point_backwards`, `C19_resolution_partial`, `C19_copy_of_unknown_raises`, `C19_included_components`, `C19_unknown_reference_refuted`, `C19_previous_zero_refuted`, `C19_previous_too_far_refuted`.

### C20 Group bookkeeping matches the components — partial

`determine_groups` as a fold; the members are the filter of the component list.

Result: First call proved in full; a second call duplicates the members (refuted).

Theorems (Properties_Instr.v): `C20_groups_match_components`, `C20_leader_first_last`, `C20_second_call_refuted`.

### C21 Splitting an instrument preserves every component — partial

InstrModel.v for names, references and groups; SplitPlace.v for absolute placement (with Euler.v for the angles written by the code).

Result: Components, closedness, references and placement; placement of the second part proved but for a quarter turn about y, which is refuted, as are stale group ids.

Theorems (Properties_Instr.v, Properties_Split.v): `C21_split_keeps_components`, `C21_second_part_closed`, `C21_kept_references`, `C21_groups_stale_refuted`, `C21_first_part_placement`, `C21_second_part_placement_partial`, `C21_quarter_turn_refuted`.

### C22 Removing unused parameters is safe — partial

`parameter_used` against occurrence of the name in any part of the instrument.

Result: Proved for the parts the code searches; a parameter used only in USERVARS is removed (refuted).

Theorems (Properties_Instr.v): `C22_mentioned_parameters_survive`, `C22_only_removes`, `C22_reported_count`, `C22_uservars_refuted`.

### C23 The effective value of a component parameter is determined by the set history — partial

Histories of `set_parameter` with overwrite flags; the effective value is the last accepted one, otherwise the default of the definition.

Result: Histories without a refused overwrite; the refused overwrite and the repeated parameter are refuted.

Theorems (Properties_Instr.v): `C23_history_determines_value_partial`, `C23_refusals`, `C23_refused_overwrite_refuted`, `C23_repeat_stored_refuted`.

### C24 Factory method honours its arguments — partial

Positional call of the dataclass constructor modelled field by field.

Result: Arguments other than group and removable; those two are refuted (positional call).

Theorems (Properties_Instr.v): `C24_make_instance_partial`, `C24_group_and_removable_refuted`.

### C25 Dependency strings are expanded completely or rejected — partial

The scanner with fuel bounded by the length of the text; spec: text with holes.

Result: Expansion, termination, error kinds and unchanged plain text; a key at the end of the text and re-scanning of expanded text refuted.

Theorems (Properties_Flags.v): `C25_expands`, `C25_only_well_formed`, `C25_terminates`, `C25_error_kinds_partial`, `C25_plain_text_unchanged`, `C25_key_at_end_refuted`, `C25_expansion_rescanned_refuted`.

### C26 Writing and re-reading an instrument keeps its meaning — partial

Writer to tokens, reader following the grammar rule by rule; round trip for one instance and for whole TRACE sections by induction, with the components read so far as context. C26_instance_characters_partial goes from characters to characters for one instance (InstrChars.v); the token-level theorem says nothing about tokens that touch.

Result: Every instance within the stated fragment and every TRACE section made of them; SPLIT, REMOVABLE, an absolute zero rotation, jump targets named like NEXT_x and translated jumps refuted. counted jumps cannot be read. C26_trace theorems are at token level and take tokens as kept apart; C26_instance_characters_partial is at character level, for instances whose words do not touch (the run-on after ROTATED is C58_rotated_runs_on_refuted).

Theorems (Properties_InstrText.v, Properties_Text.v): `C26_instance_characters_partial`, `C26_instance_round_trip_partial`, `C26_trace_round_trip_partial`, `C26_split_lost_refuted`, `C26_removable_lost_refuted`, `C26_absolute_rotation_lost_refuted`, `C26_counted_jump_refuted`, `C26_jump_name_lost_refuted`, `C26_translated_jump_refuted`.

### C27 A scan range lists exactly its grid points — partial

Spec: start + k*step for all k within the bounds; the generator loop is compared with it by induction on fuel.

Result: As stated refuted (descending ranges whose step does not divide the span, and the announced length of an empty range); the grid description is proved for every range satisfying the stated side condition, termination and constructor checks in full.

Theorems (Properties_Run.v): `C27_range_lists_its_grid_partial`, `C27_range_iteration_terminates`, `C27_constructor_rejects`, `C27_single_point_range`, `C27_range_lists_its_grid_refuted`, `C27_empty_range_length_refuted`.

### C28 The number of scan points announced is the number produced — partial

Announced number against the length of the list produced.

Result: Linear scans proved in full; grid scans proved when every item is sound; announced count refuted for one-element lists and for ranges of C27.

Theorems (Properties_Run.v): `C28_linear_scan_count_and_values`, `C28_grid_scan_complete_partial`, `C28_grid_scan_count_refuted`, `C28_linear_scan_rejects_mismatch`, `C28_one_element_list_refuted`.

### C29 Each scan point is run with its own values — partial

The list of runs with the text of their parameters.

Result: One run per point is proved; that the run receives the values of its point is refuted (runner.py:180).

Theorems (Properties_Run.v): `C29_one_run_per_point_partial`, `C29_runs_ignore_point_values`, `C29_runs_get_point_values_refuted`.

### C30 Command line parameters are parsed without loss — proved

Spec: the set of readings of an argument list; parsing yields one iff acceptable; sorting is a stable partition.

Result: Parsing, acceptance, uniqueness of the reading and argument sorting; a negative value after a bare option is recorded as a refuted reading of sort_args.

Theorems (Properties_Run.v): `C30_command_line_parse`, `C30_command_line_accepts`, `C30_reading_unique`, `C30_sort_args`, `C30_negative_value_refuted`.

### C31 Combining data files adds counts — partial

Combination as a fold; entrywise sums over any number of files, permutation invariance where it holds.

Result: Sums of data and Ncount, order, grouping and compatibility proved for any number of files; zero-dimensional files, error bars, ignored header keys, header totals, success depending on order and square files refuted.

Theorems (Properties_Data.v): `C31_data_added`, `C31_order_does_not_matter`, `C31_grouping_does_not_matter`, `C31_ncount_added`, `C31_contradictions_reported_partial`, `C31_compatible_files_combine`, `C31_zero_dimensional_refuted`, `C31_error_bars_refuted`, `C31_contradiction_accepted_refuted`, `C31_totals_in_header_refuted`, `C31_order_decides_success_refuted`, `C31_square_file_refuted`, `C31_columns_read_partial`.

### C32 Combining simulation files conserves statistics — partial

Combination as a fold over descriptions; spec by sums, minima, maxima and unions over all files.

Result: Union of monitors, per-monitor sums and totals, extremes and mean, order independence and success proved for any number of files whose first lists each monitor once; error bars, widths, duplicates in the first file, Ncount of runs in different directories, lost parameters and runs without events refuted.

Theorems (Properties_Sim.v): `C32_monitors_are_the_union`, `C32_sums_per_monitor_partial`, `C32_total_conserved_partial`, `C32_each_monitor_from_its_inputs_partial`, `C32_signal_extremes`, `C32_signal_mean`, `C32_error_bars_refuted`, `C32_error_depends_on_order_refuted`, `C32_width_shrinks_refuted`, `C32_first_file_duplicates_refuted`, `C32_ncount_of_repeats_partial`, `C32_ncount_other_directory_refuted`, `C32_parameter_lost_refuted`, `C32_order_does_not_matter_partial`, `C32_compatible_files_combine`, `C32_no_events_refuted`.

### C33 Simulation file write/read round trip — proved

Printing and parsing as functions on text; round trip by induction over lines.

Result: For every description within the stated format, and for every text that can be read at all; empty names and marker texts inside values are recorded as refutations outside the format.

Theorems (Properties_SimText.v): `C33_round_trip`, `C33_what_is_read_is_well_formed`, `C33_read_write_read`, `C33_text_determines_description`, `C33_empty_name_refuted`, `C33_marker_in_value_refuted`.

### C34 Registry priority decides which file is used — partial

Stable sort by priority; first match in the list is the best registry that has the file.

Result: Order by priority, first match, best registry and stability under additions proved for the registries given at construction; SEARCH and append_registry ignore the priority and a restriction by name is a substring test (refuted).

Theorems (Properties_Registry.v): `C34_registries_sorted`, `C34_best_registry_answers`, `C34_component_names_never_raise`, `C34_lower_priority_changes_nothing`, `C34_later_of_equal_priority_changes_nothing`, `C34_search_ignores_priority_refuted`, `C34_priority_after_construction_refuted`, `C34_which_is_a_substring_test_refuted`, `C34_which_partial`.

### C35 A registry that knows a file serves that very file — partial

`known`, `fullname`, `path`, `contents` for the three kinds of registry over a model of pathlib names and of glob.

Result: A listed file is served by remote registries and by local ones under a stated side condition, registries in memory in full; refuted: another component served for a name that ends alike, known but failing, a directory served, same base name in two directories, case of the ending.

Theorems (Properties_Registry.v): `C35_listed_file_is_served`, `C35_served_file_is_listed`, `C35_other_component_served_refuted`, `C35_known_but_fails_refuted`, `C35_same_base_name_refuted`, `C35_local_file_is_served_partial`, `C35_local_directory_served_refuted`, `C35_local_known_but_fails_refuted`, `C35_memory_serves_the_last`, `C35_memory_case_refuted`, `C35_memory_has_no_path`.

### C36 Each component definition is read once — partial

Reader as a state machine with a counter of readings; component files may ask for other components, recursively.

Result: Same object for a name, no second reading, distinct objects, circular copies; a failing file is read again at every request and two names may denote one file (refuted).

Theorems (Properties_Reader.v): `C36_same_definition_for_a_name`, `C36_read_at_most_once`, `C36_different_names_different_objects`, `C36_failing_file_read_again_refuted`, `C36_circular_copies_fail`, `C36_two_names_one_file_refuted`.

### C37 A cached registry listing is complete — partial

The write is a sequence of states (nothing, empty file, every prefix, whole file); a later start reads what is there.

Result: Complete listings are read back and an interruption before the file is opened is harmless; every interruption during the write is refuted, for every listing and every point.

Theorems (Properties_Stash.v): `C37_complete_listing_is_read_back`, `C37_second_start_agrees`, `C37_second_start_differs_refuted`, `C37_interrupted_before_opening_partial`, `C37_interrupted_write_refuted`, `C37_files_silently_missing_refuted`, `C37_start_fails_forever_refuted`, `C37_bad_download_is_not_kept`.

### C38 Library includes are emitted once and after what they need — partial

Collection as a graph search with fuel; ordering as in the code with an arbitrary order of roots; spec: the set of libraries needed and the relation "header needs".

Result: Collection and ordering: exactly the needed libraries, each once, each behind those its header needs, and collection ends for every acyclic set of headers; refuted: acyclic headers rejected by the ordering, circular headers and self-including files never end, libraries inside included files, libraries that only sources ask for.

Theorems (Properties_Includes.v): `C38_each_library_once_in_order`, `C38_acyclic_libraries_are_collected`, `C38_circular_headers_never_end_refuted`, `C38_acyclic_libraries_rejected_refuted`, `C38_library_in_included_file_refuted`, `C38_file_including_itself_never_ends_refuted`, `C38_sources_once_partial`, `C38_library_of_two_sources_twice_refuted`, `C38_header_before_the_one_it_needs_refuted`, `C38_own_header_never_ends_refuted`, `C38_chain_of_three_is_ordered`.

### C39 The generated trace loop executes components in instrument order — proved

Refinement: the emitted program, run with enough steps, equals the sequential meaning of RaySpec.v; arbitrary component code.

Result: Instruments of components without GROUP, JUMP and SPLIT, for arbitrary component code, WHEN, coordinate changes: order, arguments, at most once, all called without absorption. C40, C41 and C43 extend it.

Theorems (Properties_Trace.v): `C39_components_in_order`, `C39_never_twice`, `C39_all_called`.

### C40 GROUP means exclusive alternatives — partial

The same refinement for groups of alternatives.

Result: Groups of adjacent members with code whose first member has no WHEN; a WHEN on the first member, a member without code and user variables set by a failed member are refuted.

Theorems (Properties_Trace.v): `C40_groups_are_alternatives_partial`, `C40_when_on_first_refuted`, `C40_codeless_member_refuted`, `C40_user_variables_leak_refuted`.

### C41 Jumps go to their target and iterated jumps repeat the stated number of times — partial

Equivalence of the emitted loop with a jump machine, also for instruments with groups (RayUnits.v: the machine stands at a component or at a group); counters; target resolution.

Result: Loop and jump machine are equivalent for every instrument without SPLIT whose group members do not jump and whose jumps lead to no later member; jumps of group members and jumps past the first member are refuted; iteration counts, counter reset and target resolution; PREVIOUS of the first component, stale targets on a second translation and clashing counter names refuted.

Theorems (Properties_RayUnits.v, Properties_Trace.v): `C41_groups_and_jumps_partial`, `C41_jump_from_group_refuted`, `C41_jump_from_last_member_refuted`, `C41_jump_into_group_refuted`, `C41_loop_follows_jumps`, `C41_counters_start_at_zero`, `C41_iterate_count`, `C41_named_target`, `C41_relative_target`, `C41_unknown_target_raises`, `C41_stale_target_refuted`, `C41_previous_of_first_refuted`, `C41_counter_name_clash_refuted`.

### C42 CPU funnel and GPU-style trace agree — partial

Emitted funnel code per particle against the trace loop.

Result: Agreement for instruments of plain components; no particle leaves a GROUP in funnel mode (proved for every instrument) and JUMP is ignored, so the claim as stated is refuted.

Theorems (Properties_Trace.v): `C42_funnel_agrees_partial`, `C42_funnel_never_leaves_a_group_refuted`, `C42_group_exit_refuted`, `C42_jump_ignored_refuted`.

### C43 SPLIT conserves statistical weight and terminates — partial

Termination by a measure; the calls of all copies as a recursive function of the instrument (RaySplits.v); weight as a sum over the calls of a component.

Result: Termination for every instrument without JUMP and with SPLIT of at least one; with any number of SPLITs on components and groups the exact sequence of calls, random numbers that go on from call to call (every instrument), and weight conserved between neighbours; SPLIT 0 and a jump back over SPLIT refuted.

Theorems (Properties_Splits.v, Properties_Trace.v): `C43_random_numbers_go_on`, `C43_calls_with_splits`, `C43_weight_between_neighbours`, `C43_weight_everywhere`, `C43_terminates_partial`, `C43_weight_conserved`, `C43_split_zero_refuted`, `C43_jump_over_split_refuted`.

### C44 Component macros are always undone — partial

The sequence of `#define`/`#undef` lines and code blocks of a translated instrument as a list; spec: which macros each block sees.

Result: For every instrument: no component macro reaches foreign code, every block sees its own names, and, if names do not clash with generated or library macros, nothing else changes; bodies of macros are balanced. Refuted: mcget_run_num is never undefined, a parameter named like a coordinate removes the macro of later components, every definition for the SAVE code of an instrument is unbalanced.

Theorems (Properties_CText.v): `C44_no_component_macro_leaks`, `C44_own_names_are_visible`, `C44_nothing_else_changes_partial`, `C44_run_num_leaks_refuted`, `C44_parameter_named_like_coordinate_refuted`, `C44_definitions_balanced_partial`, `C44_save_definitions_refuted`.

### C45 Text embedded in generated C strings survives — partial

`unicode-escape` and a reader of C literals, both on code points; exact characterisation of the texts that survive.

Result: Exact characterisation, for texts without trigraphs, of those that are read back; refuted: every character from 128 to 255, control characters before a hexadecimal digit, trigraphs, surrogates, quotes in units and defaults.

Theorems (Properties_CText.v): `C45_literal_reads_as_text_partial`, `C45_ascii_text_survives`, `C45_latin_letters_refuted`, `C45_control_before_digit_refuted`, `C45_trigraph_refuted`, `C45_surrogate_refuted`, `C45_parameter_table_partial`, `C45_quote_in_unit_refuted`.

### C46 Compiler target options are not lost — partial

Target as record of flags; histories of updates; command lines as lists of words.

Result: All options but nexus survive every history of updates, compilation from the command line gets what was asked for, flags are present exactly when requested, linker words and run command; refuted: nexus lost by an update, words and /DYNAMICBASE on Windows, MPI with OpenACC cannot be run, an existing binary is never run.

Theorems (Properties_Target.v): `C46_options_survive_updates_partial`, `C46_nexus_is_lost_refuted`, `C46_target_of_a_compilation`, `C46_command_starts_with_the_compiler`, `C46_flags_exactly_when_requested`, `C46_linker_words`, `C46_windows_flags_partial`, `C46_windows_words_refuted`, `C46_run_command`, `C46_mpi_with_acc_refuted`, `C46_existing_binary_refuted`.

### C47 Saving and loading keeps an instrument — partial

A file is a tree; `save` and `load` follow the table of handlers; well-formed objects are given by class declarations (spec) and round trip by induction over objects, then over instances (each refers to earlier ones), groups and the instrument.

Result: Every object of the stored classes and every well-formed instrument comes back: fields, order of instances, references by position, groups as a mapping, lists of any length; what another version wrote, or what claims another class, is refused; refuted: classes without a handler (InMemoryRegistry), registry priority, rotations in radians, minimal mode, operations with an overridden data type, integers beyond 64 bits and NUL, different components of one name, references outside the instrument, equality of metadata. Opening a file is not modelled.

Theorems (Properties_Hdf5.v): `C47_object_round_trip`, `C47_instrument_round_trip_partial`, `C47_unsupported_class_refuted`, `C47_registry_priority_refuted`, `C47_radians_refuted`, `C47_overridden_type_refuted`, `C47_unstorable_refuted`, `C47_metadata_equality_refuted`, `C47_minimal_mode_refuted`, `C47_same_name_components_refuted`, `C47_foreign_reference_refuted`, `C47_other_version_refused`, `C47_other_class_refused`.

### C48 Component definitions have unambiguous parameters — partial

Definitions as sequences of clauses; invariants over sequences.

Result: DEFINITION and SETTING names, lookup by name, copies keep and add parameters, copied sections; refuted: OUTPUT may repeat a name (depending on order), a section given in a copy is appended to the original, SHARE COPY doubles the shared code.

Theorems (Properties_CompDef.v): `C48_names_are_distinct_partial`, `C48_effect_of_an_addition`, `C48_parameter_by_name`, `C48_output_repeats_setting_refuted`, `C48_copy_keeps_and_adds_parameters`, `C48_definitions_are_unambiguous`, `C48_redefining_a_copied_parameter_is_refused`, `C48_sections_partial`, `C48_section_of_a_copy_is_appended_refuted`, `C48_share_is_doubled_refuted`.

### C49 User particle variables are merged without clashes — partial

Declarations as data; merging as in the code; spec: which members are wanted, agreement of written text.

Result: Every instrument that passes has exactly the wanted members, each once and as declared, stable numbers, and disagreement in the written text is reported while repetition is accepted; refuted: arrays lose their size, array against scalar and contradictory initial values pass, names of built-in members pass, types of one name.

Theorems (Properties_UserVars.v): `C49_members_have_distinct_names`, `C49_members_are_the_wanted_ones`, `C49_members_are_as_declared`, `C49_numbers_of_instrument_variables`, `C49_disagreement_in_text_is_reported_partial`, `C49_repetition_is_accepted`, `C49_array_is_declared_as_scalar_refuted`, `C49_array_and_scalar_refuted`, `C49_contradictory_initial_values_refuted`, `C49_member_lines`, `C49_builtin_member_refuted`, `C49_types_of_one_name_refuted`.

### C50 Interactive and file based placement agree — partial

A call of the Assembler and the corresponding file clause yield the same instance; programs of calls by induction.

Result: Every accepted call whose rotation is not explicitly absolute beside a relative position, and every program of such calls, gives the instances of the corresponding file; refuted: an explicit absolute rotation is taken relative to the reference of AT, instances of another instrument are accepted, spellings of PREVIOUS and ABSOLUTE, a failing call leaves its component behind.

Theorems (Properties_Assembler.v): `C50_call_agrees_with_file_partial`, `C50_unknown_reference_is_refused`, `C50_program_agrees_with_file_partial`, `C50_absolute_rotation_refuted`, `C50_foreign_instance_refuted`, `C50_spellings_refuted`, `C50_failed_call_leaves_component_refuted`.

### C51 Component lookup by name in generated code — proved

The generated functions are lists of C lines with a small meaning of their own (`if (!strcmp…) return`).

Result: The generated functions, read as C text, for every list of distinct names.

Theorems (Properties_CText.v): `C51_index_of_component`, `C51_index_identifies`, `C51_address_of_component_parameters`, `C51_address_of_user_variable`.

### C52 Angles recovered from a rotation describe that rotation — partial

Real trigonometry: angles recovered from a rotation matrix give back the matrix; uses an arctangent of two arguments defined from `atan`. For angles that are parameters the entries of the matrix are expressions of a few shapes, with the simplifications of their products and sums; the value of the angle found is compared with the matrix C makes of it.

Result: Numbers: every rotation but those with a quarter turn about y; that case refuted. Angles that are parameters: the expressions of the matrix have the values of the rotation; a turn about y alone is found exactly; refuted: 90 degrees about x with a parameter about y is found as -90, and with parameters about x and y the angle about x is found in radian.

Theorems (Properties_EulerSymbolic.v, Properties_Orient.v): `C52_parameter_about_y`, `C52_quarter_turn_and_parameter_refuted`, `C52_two_parameters_refuted`, `C52_expressions_have_values`, `C52_matrix_of_parameters`, `C52_recovered_angles_partial`, `C52_recovered_angles_of_placement_partial`, `C52_quarter_turn_refuted`.

### C53 Expressions in instrument text mean what they mean in C — partial

The grammar reader of Print.v against the C reader on bracket-structured texts. The visitors by induction over the tree: value, and the marking of parameter names (ExprTags.v: no operator of expressions changes the mark of a name).

Result: Texts over + - * / >> < && with any brackets, calls, items and members; modulo, || with &&, !, mixed comparisons, mixed shifts and nested conditionals refuted. The visitors build an expression with the value of the tree, and succeed on numeric texts; a name standing for a value is marked as a parameter exactly if it is one; refuted: powers of operations raise, a call without arguments gets one, a member named like a parameter is looked for among the parameters, an element of a parameter is not.

Theorems (Properties_Print.v, Properties_Visit.v): `C53_same_reading_partial`, `C53_modulo_refuted`, `C53_or_and_refuted`, `C53_not_refuted`, `C53_comparisons_refuted`, `C53_shifts_refuted`, `C53_conditional_refuted`, `C53_texts_are_trees`, `C53_expression_has_the_value_of_the_text_partial`, `C53_numeric_texts_are_accepted`, `C53_names_are_marked`, `C53_member_with_parameter_name_refuted`, `C53_element_of_parameter_refuted`, `C53_power_of_operation_refuted`, `C53_call_without_arguments_refuted`.

### C54 Splitting at an MCPL file — partial

mcpl_split over InstrModel; the two parts are compared with prefix and suffix of the instrument.

Result: Components of both parts, the shared file name, the absolute place of the reader, closed references, success; refuted: a part cannot be split again, the condition, EXTEND code, jumps, group and metadata of the named component are dropped, parameters only it used remain.

Theorems (Properties_Mcpl.v): `C54_flags`, `C54_components_around_the_file`, `C54_same_file`, `C54_reader_is_absolute`, `C54_second_part_closed`, `C54_succeeds`, `C54_split_again_refuted`, `C54_component_dropped_refuted`, `C54_unused_parameter_left_refuted`.

### C55 Parameter values reach the component structure — partial

The emitted statements are a small imperative language with a step relation on members; `holds` relates a member to a parameter value; expressions go through the C reader of C07.

Result: Every member holds the value given or the default after the generated statements, for values of the kind the member is made for, and array initialisers without commas or braces in items; refuted: text given for a number, computed vectors, instrument parameters in initialiser lists, texts beyond 16384 characters, conditional texts, DEFINITION parameters, computed defaults, commas within initialiser items.

Theorems (Properties_Setpos.v): `C55_parameters_are_stored_partial`, `C55_text_or_null_for_a_number_refuted`, `C55_computed_vector_refuted`, `C55_parameter_in_list_refuted`, `C55_long_text_refuted`, `C55_conditional_text_refuted`, `C55_definition_parameter_refuted`, `C55_computed_default_refuted`, `C55_declared_variables_are_initialised_partial`, `C55_declared_call_refuted`.

### C56 Symbolic values of variables set in INITIALIZE — partial

`executes` runs the statements with the C reader and `den` on a state; the model is the fold of the visitor over the statements; `visit_value` (substitution lemma), C53_same_reading_partial and C02 connect them. The data types: `origins` follows where each value comes from; an invariant says that equal origins are equal objects in the heap of the model.

Result: For every block, known values and state: the expressions found have the values after execution, if the operators are those both readers order alike, and members, elements and integer conversion are not involved; simple numeric blocks are always evaluated; refuted: fractions stored in integer variables, member names replaced by values, variables before a member or an element not replaced, the known values of the caller overwritten. Data types, with the objects shared: exactly the type asked for the last variable whose value comes from the same place; as asked if there is no other such variable; refuted: a copied variable has the type of its copy, the types of the values of the caller are changed.

Theorems (Properties_EvalShare.v, Properties_Visit.v): `C56_type_of_last`, `C56_types_as_asked_partial`, `C56_own_type_refuted`, `C56_known_types_unchanged_refuted`, `C56_symbolic_values_partial`, `C56_simple_assignments_are_evaluated`, `C56_integer_variable_refuted`, `C56_member_name_refuted`, `C56_head_not_replaced_refuted`, `C56_known_values_unchanged_refuted`.

### C57 Literals keep their value — partial

Readers of C literals are written from the C standard, separately from the model of int(), float() and strip; the string reader is that of C45.

Result: Exact characterisation for integers, every finite floating point literal, adjacent string literals; refuted: octal literals, literals beyond the largest double, arithmetic with hexadecimal literals, a final escaped quote, an escape before a digit of the next literal, encoding prefixes.

Theorems (Properties_Literal.v): `C57_integer_kept_iff_partial`, `C57_octal_refuted`, `C57_float_kept_partial`, `C57_overflow_refuted`, `C57_hexadecimal_arithmetic_refuted`, `C57_strings_kept_partial`, `C57_final_quote_refuted`, `C57_escape_before_digit_refuted`, `C57_prefix_refuted`.

### C58 A written instrument file is read again as the same instrument — partial

The writer produces characters; the lexer of Lexer.v and a reader following the grammar rule by rule take them back. Each piece of the writer is shown to be cut into its own tokens whatever text follows (or provided the next character keeps the last token apart), pieces are combined, and the reader is shown to stop exactly at the end of each piece. same_instrument, the relation between what was written and what was read, is stated field by field without the model. For the refutation of run-on words the proof goes over all instruments: the first component with the defect makes the whole text unreadable.

Result: Every instrument within the stated conditions, from characters to characters. Not read: SHELL, SEARCH, COPY, includes. Refuted: an instance that writes ROTATED and then GROUP, EXTEND, JUMP or METADATA (the words run together, the file cannot be read), a source name that ends the comment, a block that contains its end mark, default values that are not constants, names that are keywords.

Theorems (Properties_InstrText.v): `C58_instrument_characters_partial`, `C58_rotated_runs_on_refuted`, `C58_comment_refuted`, `C58_default_dropped_refuted`, `C58_keyword_name_refuted`, `C58_block_end_refuted`.

### C59 Variables of a DECLARE section become members of the parameter structure — partial

The visitor of C declarations is modelled on parse trees whose leaves are arbitrary texts. The specification (means) says what C declares: type, stars, name and sizes as texts, an omitted size being the number of items of an initialiser tree whose lists are nested as deep as the array. The theorem follows the text replacements, the splitting at brackets and the repeated regular expression for every tree. What the conditions exclude is shown by the refutations.

Result: Every list of declarations of names, pointers, arrays and pointers to functions within the stated conditions. Refuted: the name of the variable at the start of its first size, arrays initialised without braces (division by zero), an omitted size next to one that is not a number, lists that end in a comma, initialisers with fewer braces than dimensions, octal sizes, brackets around names and pointers to arrays, function arguments ending in a bracket, storage classes.

Theorems (Properties_Declares.v): `C59_members_partial`, `C59_name_in_size_refuted`, `C59_literal_refuted`, `C59_omitted_refuted`, `C59_trailing_comma_refuted`, `C59_flat_refuted`, `C59_octal_refuted`, `C59_brackets_refuted`, `C59_arguments_refuted`, `C59_storage_refuted`.

### C60 The table of instrument parameters — partial

The rows are characters; the specification reads them with a reader of C string literals and separators written separately (c_chars, c_row) and compares with the parameter (describes): name, member, type, unit, and a default text that is the number or the text of the parameter.

Result: Every list of parameters with constant default values and units that are plain text or one literal, read back with a reader of C string literals. Refuted: a missing default is the text None, a default that is a name is its characters, a computed default ends the translation, quotes inside units and literals with a prefix are no C.

Theorems (Properties_ParamTable.v): `C60_table_partial`, `C60_no_default_refuted`, `C60_named_default_refuted`, `C60_computed_default_refuted`, `C60_quote_in_unit_refuted`, `C60_prefix_refuted`.

### C61 Reaching the members of a particle by name — partial

Memory is bytes at addresses; the places of the members, sizes of types and conversions are arbitrary, members only have different names and do not overlap (layout). The generated sequences of comparisons are folds over the lists of names; the theorems say which bytes are read and written for every name.

Result: Every list of user variables, layout and memory. Refuted: variables that are not double are read as double, arrays are written beyond their member, pointers are overwritten with the data, pointers to functions are copied in part, arrays and other types are left uninitialised, counters of different JUMPs share a name.

Theorems (Properties_Particle.v): `C61_read_by_name_partial`, `C61_write_by_name_partial`, `C61_write_then_read`, `C61_addresses`, `C61_restore`, `C61_read_by_number`, `C61_initial_values_partial`, `C61_start`, `C61_other_type_refuted`, `C61_array_overwrites_refuted`, `C61_pointer_overwritten_refuted`, `C61_function_pointer_refuted`, `C61_not_initialised_refuted`, `C61_jump_counters_partial`, `C61_jump_names_refuted`, `C61_jump_twice_refuted`.

### C62 Blocks run at their time, once for every instance — partial

The emitted functions are statement lists found by name, with an interpreter that gives the sequence of events; the specification writes down the sequences from the instrument. Distinctness of all function names is proved on the way.

Result: Exact sequence of events of init, save, finally and display for every instrument. Refuted: default vectors are never freed, the place reported during SAVE and DISPLAY is wrong.

Theorems (Properties_Life.v): `C62_functions_are_distinct`, `C62_init`, `C62_save`, `C62_finally`, `C62_display`, `C62_freed_was_allocated_partial`, `C62_default_vector_refuted`, `C62_save_place_refuted`, `C62_display_place_refuted`.

### C63 The text of a monitor file is read as the file that was written — partial

The writer produces characters, the reader splits them into lines. Values need only stand on one line without blanks around them and no # at the end (clean); numbers may be printed in any way that is read back. Every line is followed through the reader by lemmas on strip and split; the dictionaries by what is found under each key. The relation same_file says what of a file survives, independently of the reader.

Result: Round trip of text for all files with clean values, also after combining. Refuted: files with as many bins as variables, more than three tables, no bins, two dimensional files of different names, values ending in #.

Theorems (Properties_DatText.v): `C63_written_is_read`, `C63_written_again`, `C63_written_has_all_keys`, `C63_combination_is_sound`, `C63_combined_file`, `C63_read_is_sound`, `C63_square_file_refuted`, `C63_fourth_table_refuted`, `C63_no_bins_refuted`, `C63_two_dimensional_names_refuted`, `C63_hash_lost_refuted`.

### C64 Items and axes of a monitor file — partial

The specification names which variable, parameter or key is meant, and says where the boundaries are by a formula; the model builds them by concatenation as the code does.

Result: Items, axes, boundaries and units for all files. Refuted: one bin, label without unit, parameter named like the limits; boundaries are not those of limits that are outer edges.

Theorems (Properties_DatText.v): `C64_items`, `C64_boundaries`, `C64_axes`, `C64_unit`, `C64_single_bin_refuted`, `C64_label_without_unit_refuted`, `C64_parameter_hides_limits_refuted`, `C64_limits_as_edges_refuted`.

### C65 A compiled instrument is started with the options, directory and parameters that were given — partial

The specification is a reader of words (means) after the McCode run time, and a record (told) that says which options, flags, directory and parameters a program was told, by lookup under names; the theorems follow the text through joining and splitting at blanks for all dictionaries.

Result: Exact commands for single runs and scans with values without blanks. Refuted: short option names in scans, blanks in values and directories.

Theorems (Properties_RunCmd.v): `C65_single_run`, `C65_scan_runs`, `C65_short_names_refuted`, `C65_value_with_blank_refuted`, `C65_directory_with_blank_refuted`.

### C66 The command line compiles the instrument named and runs it as asked — partial

The command line program as a function of disk, reader and compiler; outcomes are an exception, no run, or a binary with its commands.

Result: Compile and run for every command line outside the findings. Refuted: no parameters, directory option, number of processes, existing binaries, executable files, mcstas_run, files of the same name.

Theorems (Properties_RunCmd.v): `C66_command_line`, `C66_no_parameters_refuted`, `C66_directory_refuted`, `C66_process_count_refuted`, `C66_old_binary_refuted`, `C66_executable_file_refuted`, `C66_python_run_refuted`, `C66_results`, `C66_same_name_lost_refuted`.

### C67 The table of metadata in the C source holds what the files say — partial

The text of the table is read by a small reader of C (trigraphs, tokens, adjacent literals, initialiser lists); rows are compared with how C reads each text alone.

Result: The table is read as the collected metadata for all texts that are literals on their own, in particular ordinary texts of files. Refuted: names with blanks give no C; metadata of a component type have the name of the type, once for each instance.

Theorems (Properties_MetaTable.v): `C67_table`, `C67_from_file`, `C67_marked_value`, `C67_name_with_blank_refuted`, `C67_instances_alike_refuted`.

### C68 No name is declared twice in the generated C source — partial

Declarations are an inductive type with a printing function; that printing is injective apart from a list of pairs is shown by cases, which gives an exact condition.

Result: The exact condition for distinct names of types, variables and functions, a sufficient one for structures, an exact one for the members that control SPLIT and GROUP. Refuted in general: types particle, instrument or X_parameters, instances instrument, SPLIT on a and a_particle.

Theorems (Properties_DeclNames.v): `C68_names`, `C68_type_of_the_program_refuted`, `C68_instance_instrument_refuted`, `C68_type_and_parameters_refuted`, `C68_structures`, `C68_control_members`, `C68_split_copy_refuted`.

### C69 An included instrument file counts like its text in place — partial

Nested induction over the parse tree with the enclosing instances as an arbitrary list in front; references are compared through uniqueness of names in the final list.

Result: Proved whenever the nested reading succeeds, at every depth, for included files whose instances have names of their own. Refuted: names by COPY, references across two levels, DEPENDENCY of included files, MYSELF in expressions.

Theorems (Properties_InclMerge.v): `C69_text_in_place`, `C69_removable`, `C69_parts`, `C69_copy_names_refuted`, `C69_two_levels_refuted`, `C69_included_dependency_refuted`, `C69_removable_flags_refuted`, `C69_myself_refuted`.

### C70 Both ways of reading an instrument keep its flags and registries — partial

The reader only grows: known types, flags and registries are kept by every step, by nested induction over the parse tree.

Result: Proved: the two ways differ in exactly two points, and the flags of all types used are kept. Refuted: get_instrument drops the DEPENDENCY of the instrument, parse_mccode_instr drops the registries of SEARCH.

Theorems (Properties_InclMerge.v): `C70_ways`, `C70_types`, `C70_own_dependency_refuted`, `C70_search_refuted`.

### C71 The flags of dependencies reach the compiler, keywords put in — partial

A dependency is a list of pieces, text and keywords; one literal substitution is a map over the pieces (the sign of a keyword can only start where one does), so the sequence of substitutions is the simultaneous one. The order of a set is an arbitrary permutation.

Result: Proved for text between keywords that is not itself a name and configured values without backslash: all keywords are put in; each dependency once, the same words up to order. Refuted: backslash in values, a name between keywords, a final quote of a component flag, the order of the words.

Theorems (Properties_Keywords.v): `C71_keywords`, `C71_meaning`, `C71_backslash_refuted`, `C71_text_between_refuted`, `C71_literal`, `C71_quotes_refuted`, `C71_each_once`, `C71_same_words`, `C71_order_refuted`.

### C72 A component has the parameters that it declares — partial

The visitors give the values of Setpos.v, for which C55 says what is stored; declared types and defaults are stated directly in C.

Result: Proved for numbers, texts, lists of numbers, NULL and missing defaults. Refuted: int * parameters, computed elements of lists, defaults that name a DEFINITION parameter.

Theorems (Properties_CompParam.v): `C72_types`, `C72_defaults`, `C72_integer_array_refuted`, `C72_computed_element_refuted`, `C72_definition_name_refuted`.

### C73 Parameters and particle variables added in Python are what was given — partial

Calls are functions on the list of parameters, up to the first that raises; texts go through the lexer and the reader of C58. The reading of C declarations is an arbitrary function.

Result: Proved: what is added for each form of argument, names stay different, repeated names, written text with quoted units is read again, one variable is declared once. Refuted: further text dropped, unit before the value, whole floats, text without quotes, units without quotes in written files, several variables in one text, a variable of another type.

Theorems (Properties_AsmParam.v): `C73_parameters`, `C73_names_stay_different`, `C73_repeated`, `C73_every_argument`, `C73_written_type`, `C73_text_is_read`, `C73_more_text_refuted`, `C73_unit_first_refuted`, `C73_whole_float_refuted`, `C73_text_without_quotes_refuted`, `C73_unit_not_read_refuted`, `C73_user_variable`, `C73_user_variables_refuted`, `C73_user_type_refuted`.

### C74 A component made with COPY is like its original except for what is stated — partial

Statements are functions on the list of instances and a list of jump objects that instances refer to by position, so that sharing is visible; the translator's loop changes the objects. What is stored for a parameter value is an arbitrary function.

Result: Proved: what a copy and a plain instance have, chains of copies, targets of stated jumps, targets of named jumps (copied or not), made names. Refuted: copied jumps to PREVIOUS, NEXT and MYSELF; repeated parameters count differently in a copy; the source of copied metadata; made names may collide with written ones.

Theorems (Properties_CopyInst.v): `C74_copy`, `C74_plain`, `C74_chain`, `C74_stated_jump_target`, `C74_named_jump_target`, `C74_made_name_is_new`, `C74_copied_relative_jump_refuted`, `C74_repeated_parameter_refuted`, `C74_metadata_source_refuted`, `C74_made_name_refuted`.

### C75 The configured header has the right values in place of its keys — partial

The regular expression is a function on texts with its own specification (unique splitting of a text into characters and keys found from the left); registries as in Registry.v; the configuration is a list of sources. The parsing of versions, the printed form of a registry and the date are arbitrary functions.

Result: Proved: which text is replaced by what, what stays, when the header is written, embedded files, order of version numbers below 100/1000, when an earlier translation has no effect. Refuted: the version of the library never reaches the header (registry libc, flavor mcstas); own copy of the header; text and version of the same registry; independence of an earlier translation; order of all version numbers.

Theorems (Properties_ConfigFile.v): `C75_keys_are_replaced`, `C75_other_text_is_kept`, `C75_text_with_keys`, `C75_configured_header`, `C75_header_is_written`, `C75_macro_keeps_order`, `C75_macro_order_refuted`, `C75_earlier_translation`, `C75_embedded_file`, `C75_version_in_the_header_refuted`, `C75_own_header_refuted`, `C75_version_of_the_text_refuted`, `C75_earlier_translation_refuted`, `C75_registry_text_is_one_line`, `C75_unique_means_one`.

### C76 SEARCH puts the described place in front of all others, once — partial

Texts are split into words as str.split does; the file system, the test of URLs, the shell and the loading of remote lists are arbitrary functions; a registry is what the code compares.

Result: Proved: the four forms from Python, what an accepted text leaves, that a text is not added twice (forms one to three), the order of several statements, SEARCH of one directory, SEARCH of several words fails, lines of a shell command without a last line end, commands of several words fail. Refuted: SEARCH with a name, SEARCH of the fourth form, SEARCH twice, the fourth form twice, a name like a searched directory, a printed directory with its line end.

Theorems (Properties_Search.v): `C76_documented_forms`, `C76_accepted_place`, `C76_at_most_one`, `C76_again`, `C76_later_first`, `C76_search_directory`, `C76_search_of_words`, `C76_shell_last_line`, `C76_shell_lines`, `C76_shell_of_words`, `C76_search_named_directory_refuted`, `C76_search_github_refuted`, `C76_search_again_refuted`, `C76_again_github_refuted`, `C76_name_like_directory_refuted`, `C76_shell_directory_refuted`.

### C77 The management commands change and remove what they name — partial

The configuration is the list of its sources, each a tree, searched in order; each command is a program that starts from environment, file and defaults; the cache is a set of paths.

Result: Proved: get, set within one program, save and start again for keys that are not both in the file and set above it, list of top keys, removal with plain names, the ten answers that mean yes, the list of caches. Refuted: set is there in the next command, set then save, unset removes, list selects by expression, list shows all settings in effect, get without key shows all, save keeps settings beside one from the environment, removal stays inside of the cache, removal with an empty name.

Theorems (Properties_Manage.v): `C77_set_in_session`, `C77_save_and_start_again`, `C77_get_prints_value`, `C77_get_finds_value`, `C77_get_below_text`, `C77_set_is_kept_refuted`, `C77_set_then_save_refuted`, `C77_unset_refuted`, `C77_list_selects_refuted`, `C77_list_shows_all_refuted`, `C77_get_full_refuted`, `C77_save_keeps_refuted`, `C77_list_top_keys`, `C77_remove_exactly`, `C77_remove_asks`, `C77_remove_inside_refuted`, `C77_remove_empty_name_refuted`, `C77_cache_list`.

### C78 The parameters of an instrument file can be read without the rest of it — partial

Both visitors act on the same parse tree; expressions are visited by the model of C53 with names that may raise; defaults are compared by the values of their expressions in all states.

Result: Proved: the same parameters where there is no included file and no PREVIOUS in an expression; with included files the own parameters are the first ones; what each declaration gives; which files can be read. Refuted: PREVIOUS in an expression of an instance, parameters of included files, integer defaults are integers, MYSELF in an expression.

Theorems (Properties_InstrParams.v): `C78_same_parameters`, `C78_included_parameters`, `C78_parameters_are_declared`, `C78_parameters_are_read`, `C78_previous_refuted`, `C78_all_parameters_refuted`, `C78_int_default_refuted`, `C78_myself_refuted`.

### C79 A command reads the files its command line says, in that order, and does not overwrite them — partial

Registries and their searches are those of C34 and C35; the disk is an arbitrary function from paths to texts.

Result: Proved: the order of the searches, existing files first, name and text of one file for local registries and for remote ones that list the name, the default output, the distribution behind what is given. Refuted: name and text of one file where only a longer name is listed, directories in front of a name, instruments in memory, libraries beside components after the functions of the loader.

Theorems (Properties_SourceFiles.v): `C79_search_order`, `C79_file_first`, `C79_one_file_is_read_partial`, `C79_text_and_name_refuted`, `C79_directory_refuted`, `C79_memory_instrument_refuted`, `C79_memory_instrument_kept`, `C79_default_output`, `C79_distribution_added`, `C79_library_beside_component`, `C79_library_elsewhere_refuted`.

### C80 The HTML view of an instrument shows the text of the instrument — partial

What a browser shows is a small separate function (tags, five character references); every writer is shown to give markup that shows its text, and the pieces are put together.

Result: Proved for instruments without metadata in whose C code, names, places and JUMP conditions no less-than sign and ampersand stands; parameter values and WHEN expressions are arbitrary. Refuted: C code with a less-than sign before a letter, JUMP conditions and places (not escaped), metadata (one quote too many).

Theorems (Properties_HtmlView.v): `C80_page_shows_text_partial`, `C80_value_shown`, `C80_block_refuted`, `C80_metadata_quote_refuted`.

### C81 The version of the component libraries is the one asked for, latest the newest there is — partial

The pattern is a scanner of texts; it is shown to find exactly the tags of a listing whose tags are names of versions, and only names of versions in any text. Places are shown to be different by taking the texts apart.

Result: Tags are found, chosen and refused as stated if all tags of the repository are names of versions (v and one to three numbers). Refuted otherwise: after a tag v3.6.0-rc1 the version used is v3.6.0, which does not exist, and v3.6.0-rc1 is refused. git and pooch are not modelled.

Theorems (Properties_LibTag.v): `C81_tags_found`, `C81_latest`, `C81_requested`, `C81_always_a_version`, `C81_tag_exists_refuted`, `C81_one_version`, `C81_kept_apart`.

### C82 A component has the category that its file states, else that of its directory; instances are found by category — partial

The category is computed along the chain of COPY over the registries of Registry.v; the served file is found with C35_listed_file_is_served. The instances of a category are compared with a small exact search.

Result: Proved for stated categories in quotation marks, for COPY, for remote files in a directory and for local files; the search gives all instances of the category, and no others if no other category contains the text. Refuted: files in memory have their file name as category; a category stated as a name cannot be read; the search also gives instances of categories that contain the text.

Theorems (Properties_Category.v): `C82_stated`, `C82_copy`, `C82_guessed_remote`, `C82_guessed_local`, `C82_memory_category_refuted`, `C82_category_name_refuted`, `C82_instances_partial`, `C82_instances_refuted`.

### C83 An instrument is compiled only by a compiler that has been tried, and the binary returned exists — partial

A process is a state with the remembered trials and the commands run; an invariant over histories of configuring, installing and compiling. Programs are arbitrary functions of the command.

Result: Proved for every history: a trial with the compiler of the target succeeded before, each compiler is tried at most once, what was run and which files exist for each outcome, and the default place. Refuted: the flags for NeXus, and those for MPI together with OpenACC, are in no trial; a compiler configured later is never tried; a compiler named by an environment variable is refused; an existing binary needs a compiler and is returned for any target; a name with a dot loses what follows.

Theorems (Properties_Compile.v): `C83_tried_before`, `C83_tried_once`, `C83_what_was_done`, `C83_default_place`, `C83_nexus_not_tried_refuted`, `C83_mpi_with_acc_not_tried_refuted`, `C83_configured_later_refuted`, `C83_used_untried_refuted`, `C83_variable_in_name_refuted`, `C83_existing_binary_refuted`, `C83_name_with_dot_refuted`.

### C84 The report of a syntax error shows the line in question above a mark at its column — partial

Python slices with negative bounds; a source is given by a place in it and the lines around.

Result: Proved from the fifth line on and for sources of fewer than five lines. Refuted: in the first four lines of any longer source neither the line nor any line before it is shown.

Theorems (Properties_ErrorReport.v): `C84_line_above_mark_partial`, `C84_first_lines_refuted`, `C84_mark_column`.

### C85 A value or range on the command line means the number, range or text that was written — partial

int and float of Python on ASCII text in exact arithmetic; numbers are specified by their digits in positional notation.

Result: Proved for all decimal numbers, ranges of them and every text without a colon that Python does not take for a number. Refuted: texts with a colon cannot be given at all, and a text that looks like a number (0071, 2024_11, Infinity) is changed even for a string parameter.

Theorems (Properties_RangeText.v): `C85_number_is_meant`, `C85_range_is_meant`, `C85_step_is_one`, `C85_colon_means_range`, `C85_text_with_colon_refuted`, `C85_text_with_other_characters_kept`, `C85_other_text_kept`, `C85_text_kept_refuted`, `C85_handed_on_unchanged`.

### C86 The code of a component type stands in the C source once, whole and translated, however many instances use it — partial

Component types are objects on a heap and instances refer to them; the translation of one block of code is an arbitrary partial function.

Result: Proved for all instruments in which instances of the same type have the same object, which is so for files. Refuted: two instances made with the name of their component (Instr.make_instance, mcpl_split beside an MCPL_output) have two objects, and every translation of such an instrument fails for any component with code; tried again, it succeeds.

Theorems (Properties_TypeCode.v): `C86_each_type_once`, `C86_again_the_same`, `C86_made_by_name_refuted`, `C86_made_beside_read_refuted`, `C86_outcome_repeats_refuted`.

### C87 An executable made with --source carries the text that its instrument was read from — partial

Files are a map from paths to what can be found there; parsing is an arbitrary partial function; what C reads is that of CText.v.

Result: Proved for instruments read by the commands from a file that does not change, up to the texts that do not survive in C strings (C45). Refuted: an instrument from load_mcstas_instr has no source, so the translation with embedding fails for every file; the file is read anew, so a changed text is embedded and an unreadable file silently gives the advice to use --source; a file named interactive is embedded into assembled instruments; the program named in the advice is None.

Theorems (Properties_EmbedSource.v): `C87_embedded_text_is_the_text_read`, `C87_ordinary_file_is_embedded`, `C87_not_embedded`, `C87_not_asked_files_unused`, `C87_main_as_asked`, `C87_loaded_instrument_refuted`, `C87_changed_file_refuted`, `C87_assembled_instrument_refuted`, `C87_carriage_returns_refuted`.

### C88 The axis and the angle given for a rotation describe it — partial

Matrices over the real numbers as in Orient.v; the eigenvector is any vector of length one that the matrix keeps. Euler and Rodrigues: every rotation matrix is determined by such a vector, its trace and a sign.

Result: Proved for all rotations if the vector is right-handed, and for either vector through less than 120 degrees or with an axis in a coordinate plane. Refuted: around the diagonal through 120 to below 180 degrees the opposite vector comes with the angle of the opposite rotation. The specialization is proved to keep the map except for half turns (refuted). Rounding of numbers is not modelled.

Theorems (Properties_AxisAngle.v): `C88_right_handed_axis`, `C88_below_120_degrees_partial`, `C88_axis_in_plane`, `C88_sense_unnoticed_refuted`, `C88_axis_exists`, `C88_single_axis`, `C88_half_turn_refuted`, `C88_specialization_keeps_map_partial`, `C88_specialized_half_turn_refuted`.

### C89 Registries are equal exactly if they are the same place, and the C library is among those of a translated instrument once — partial

Objects with identity, class and the compared attributes; the protocol of == of CPython with the reflected method of a subclass first. Same place is specified apart from the methods; the rest is induction over the list of registries. Versions of digits and dots are parsed.

Result: Equality is proved to be sameness of place, consistent and without exceptions; the library is there, added only if missing, in order of priority, and no more on a second translation; warnings are counted exactly. Refuted: a registry that could not be loaded is not equal to itself; lists of files are not compared; an instrument with a library of another version gets both and its header cannot be configured; the library of a branch raises. pooch and versions with more than digits and dots are arbitrary functions.

Theorems (Properties_SameRegistry.v): `C89_equal_iff_same_place`, `C89_equality_is_consistent`, `C89_placeholder_refuted`, `C89_list_not_compared_refuted`, `C89_versions_differ`, `C89_library_is_there`, `C89_twice_is_once`, `C89_two_versions_refuted`, `C89_old_libraries_noticed`, `C89_branch_refuted`, `C89_ensured`.

### C90 What a reader says about a file agrees with what it gives — partial

Built on the registries of Registry.v; a regular expression is an arbitrary set of places where it matches. Lists are compared by induction, unique names through the single result of the filter that decides them.

Result: Proved: known and contain agree with each other and with which registry is read; unique names of remote and local registries are served; search and match find what they say, and names found in remote registries and in memory are served. Refuted: a known file may not be readable; a registry in memory never says unique; a unique file may come from another registry; in local registries a search finds directories only (before Python 3.13) and names found cannot be asked for. Symbolic links are not modelled.

Theorems (Properties_Answers.v): `C90_known_and_contain`, `C90_known_but_not_read_refuted`, `C90_unique_is_served_remote`, `C90_unique_is_served_local`, `C90_unique_in_memory_refuted`, `C90_unique_in_one`, `C90_unique_elsewhere_refuted`, `C90_search_finds`, `C90_found_is_served`, `C90_local_search_refuted`, `C90_local_found_not_served_refuted`.

### C91 A copy of an instrument, and each part of a split one, stand on their own — partial

Instances and jumps are places in lists of objects. What is seen of an instrument is defined on these lists, with references as names; copying appends, assigning replaces one object, and the loops of split and set_jump_absolute_targets are followed by induction for the places they leave alone.

Result: Proved: a copy shows what was asked for; neither copying, splitting nor later changes to the copy are seen in other instruments; changes of the original that keep names are not seen in the copy, and none is seen in the second part of a split; parts can be translated one after the other if the component they share has no jump and no jump is shared by COPY. Refuted: renaming a component of the original changes what the copy refers to; a last far below zero copies all but one component; once the first part is translated, the jumps of the component at the split are wrong in the second, and so are all jumps if the instrument was translated before it is split. Parameters, blocks, metadata and groups are not objects here.

Theorems (Properties_Copies.v): `C91_copy_shows`, `C91_copy_of_all`, `C91_changing_the_copy`, `C91_changing_the_original_partial`, `C91_split_leaves_the_original`, `C91_second_part_on_its_own`, `C91_translating_another`, `C91_parts_one_after_the_other_partial`, `C91_renaming_the_original_refuted`, `C91_far_back_refuted`, `C91_jump_of_the_split_component_refuted`, `C91_split_after_translating_refuted`.

### C92 The C program takes exactly the instrument parameters for instrument parameters — partial

The names of an expression as they are meant are defined on the source text; the visitor, the checks of an Assembler and verify_instance_parameters mark identifiers of the tree of Expr.v, and what is written in C is the list of names with the prefix of marked ones. Files and programs are followed by induction with the parameters known at each component.

Result: Proved: files, where positions and conditions name parameters of their own file or of files included before; values of parameters always; with an Assembler values of parameters whenever they are added, and positions if the parameters were added before. Refuted: SPLIT, WHEN and JUMP given to an Assembler are not marked at all; a position is not marked if its parameter is added later, or if it is given as the text of an operation; a parameter of the including file is not marked in positions and conditions of an included one; a member of a structure with the name of a parameter is written as the parameter. Operations are kept as written.

Theorems (Properties_ParamNames.v): `C92_file`, `C92_member_refuted`, `C92_included_refuted`, `C92_assembled_partial`, `C92_conditions_refuted`, `C92_late_refuted`, `C92_coordinate`, `C92_coordinate_product_refuted`.

## Findings

Behaviour of the code that contradicts a claim, each proved of the model with a witness or for all inputs of the kind described:

* `C01_operation_plus_number_refuted`: An operation plus a plain Python number raises (AttributeError), the other order works.
* `C03_floor_division_by_one_refuted`: 2.7 // 1 is 3 and 2.7 // -1 is -3 here; Python says 2 and -3.
* `C03_identifier_floor_one_refuted`: an identifier floor-divided by one raises, since round() of a str does.
* `C03_power_of_operation_refuted`: an operation cannot be raised to a power at all.
* `C03_round_of_integer_typed_quotient_refuted`: rounding an operation typed as integer does nothing: 1/2 of two integer parameters is such an operation.
* `C03_zero_over_zero_refuted`: 0 / 0 and 0 // 0 are silently 0.
* `C03_zero_power_refuted`: 0 ** 0 is 0 (Python: 1) and 0 ** -1 is 0 (Python: ZeroDivisionError).
* `C04_member_name_refuted`: s.b with a known value for an unrelated b becomes s.(2).
* `C04_second_evaluation_refuted`: (a + x).evaluate(a=0), then 1 + that, then evaluate(x=2): the x is still there.
* `C05_hidden_dependence_refuted`: 1 + (a + x).evaluate(a=0) depends on x, but says it does not.
* `C07_abs_refuted`: abs prints as C's abs, which is a function of integers.
* `C07_after_evaluate_refuted`: replacing b by c * d in a / b does the same.
* `C07_floor_division_refuted`: floor division prints as division.
* `C07_member_named_like_parameter_refuted`: a member that shares its name with an instrument parameter is written with the prefix of the parameter.
* `C07_negative_power_refuted`: and the negative of a power is read from an instrument file as a power of the negative.
* `C07_power_refuted`: the power operator prints as ^, which C reads as exclusive or.
* `C07_quotient_by_product_refuted`: a / (b * c) prints as a / b * c.
* `C07_sum_of_comparison_refuted`: (a < b) + c prints as (a<b + c).
* `C07_two_signs_after_evaluate_refuted`: Evaluation may put a negative number behind a sign, with the same result: neither C nor the instrument reader reads the text.
* `C07_two_signs_refuted`: 0 - (-2 * a) prints as --2 * a, which neither a C compiler nor the reader of instrument files accepts.
* `C08_division_refuted`: Every division of two constants that is not exact folds to another value than C's.
* `C08_floor_division_refuted`: Floor division folds towards minus infinity, while its printed text is a C division and goes towards zero.
* `C08_round_refuted`: round of a half: Python rounds to even, C away from zero.
* `C09_equal_sums_hash_differently_refuted`: a + b == b + a but their hashes differ.
* `C09_operations_have_no_hash_refuted`: Operations define __eq__ without __hash__, so hash raises.
* `C09_same_value_refuted`: the identifier x equals the string constant x written without quotes.
* `C09_symmetry_refuted`: a bare operation and an Expr holding it compare differently in the two directions.
* `C10_hidden_identifier_refuted`: identifiers inside a Value that holds an Expr are not flagged.
* `C12_half_turn_not_rigid_refuted`: sin_value(180) is -1 in the code (orientation.py:354): the part is not a rotation, it stretches.
* `C12_radian_parts_refuted`: A rotation part with degrees=False multiplies the angle by pi/180 and then takes it for degrees.
* `C12_symbolic_angle_refuted`: For a symbolic angle the matrix entry is sin(v) of the angle in degrees.
* `C13_inverse_undoes_refuted`: Without the restriction it fails: a half turn is not undone by its inverse.
* `C13_orient_inverse_refuted`: Orient.inverse inverts position and rotation separately, its combination is not the inverse.
* `C14_absolute_rotation_refuted`: AT relative to a component, ROTATED ABSOLUTE (or absent reference): Python falls back to the AT reference for the rotation, the C code does not.
* `C14_half_turn_refuted`: A half turn is placed differently by Python (C12) and by C.
* `C15_first_component_skipped_refuted`: Without the proviso: an Arm (skipped) one metre downstream comes first.
* `C19_previous_too_far_refuted`: PREVIOUS beyond the beginning is a component named None, if there is one.
* `C19_previous_zero_refuted`: PREVIOUS(0) is the first component.
* `C19_unknown_reference_refuted`: A misspelt reference in the instrument itself is only logged: the component is placed ABSOLUTE.
* `C20_second_call_refuted`: Determining the groups a second time doubles every membership.
* `C21_groups_stale_refuted`: The group bookkeeping is copied, not recomputed: in the second part it points at positions that are not there.
* `C21_quarter_turn_refuted`: A quarter turn about y composed with one about x: the second instrument's component comes back turned differently.
* `C22_uservars_refuted`: USERVARS text is not looked at.
* `C23_refused_overwrite_refuted`: A refused overwrite loses the value that was there.
* `C23_repeat_stored_refuted`: An allowed repeat is stored as well: the parameter is then there twice, although only the first is ever reported.
* `C24_group_and_removable_refuted`: make_instance passes group as removable and removable as cpu.
* `C25_expansion_rescanned_refuted`: Expansions are expanded again: the value of an environment variable is run as a command.
* `C25_key_at_end_refuted`: A key at the very end is an IndexError rather than the ValueError of a missing parenthesis.
* `C26_absolute_rotation_lost_refuted`: ROTATED (0, 0, 0) ABSOLUTE is left out, and its absence means something else after AT ... RELATIVE.
* `C26_counted_jump_refuted`: A jump over several components, such as PREVIOUS(2), is written with its count and cannot be read: the visitor calls int on a node of the parse tree, which is no number (TypeError).
* `C26_jump_name_lost_refuted`: A jump to a component named like NEXT_sample goes to the next component.
* `C26_removable_lost_refuted`: REMOVABLE is not written.
* `C26_split_lost_refuted`: SPLIT and REMOVABLE are not written.
* `C26_translated_jump_refuted`: After the translator has run, a named jump over more than one component has its distance recorded (target.py:219-230) and is then written in a form the grammar does not have.
* `C27_empty_range_length_refuted`: MRange(0, -1/2, 1) contains no grid point but announces one.
* `C27_range_lists_its_grid_refuted`: MRange(0, 1, 2): list() is [] but the grid is [0]; len() is 1.
* `C28_grid_scan_count_refuted`: a grid over a one-point range announces one point and produces none.
* `C28_one_element_list_refuted`: a list of one value is a legal entry, but a linear scan with it fails.
* `C29_runs_get_point_values_refuted`: Every run of a scan gets the text of the whole ranges instead of the values of its point (runner.py:180).
* `C30_negative_value_refuted`: but a parameter given as a separate negative number is torn from its name.
* `C31_contradiction_accepted_refuted`: A parameter whose name contains one of the words signal, statistics, values: two runs with different values are combined without complaint.
* `C31_error_bars_refuted`: Error bars 3 and 4 become 7, not 5.
* `C31_order_decides_success_refuted`: Whether files combine depends on their order.
* `C31_square_file_refuted`: A one dimensional file with as many bins as variables is not transposed when read: the rows of the file are taken for the variables.
* `C31_totals_in_header_refuted`: The header line with the totals stays that of the first file.
* `C31_zero_dimensional_refuted`: Zero dimensional files cannot be combined at all: with nothing.
* `C32_error_bars_refuted`: The error bar of combined runs is not the root of the sum of squares.
* `C32_error_depends_on_order_refuted`: two runs with errors 3 and 4: the two orders give different error bars, neither is 5.
* `C32_first_file_duplicates_refuted`: a file that lists one monitor twice: as the first file it loses one entry, as a later file both are added.
* `C32_ncount_other_directory_refuted`: every run of mcrun writes to its own directory; then the smaller Ncount is kept, or, when one directory name is part of the other, that of one of the runs.
* `C32_no_events_refuted`: a monitor that counted nothing in any run cannot be combined.
* `C32_parameter_lost_refuted`: a run with one more parameter counts as a repeat, and the parameter is lost.
* `C32_width_shrinks_refuted`: adding a run to itself narrows the recorded width by a factor sqrt 2.
* `C33_empty_name_refuted`: an empty description or name, or a text with an end marker, is written but cannot be read.
* `C33_marker_in_value_refuted`: a parameter value with the text of the end marker cuts the block off without an error.
* `C34_priority_after_construction_refuted`: The same for a registry appended later.
* `C34_search_ignores_priority_refuted`: A registry named by a SEARCH statement is put in front whatever its priority (reader.py 51-52, 58-64), and a registry appended later is asked last whatever its priority (55-56): the order by priority only holds for the registries given at construction.
* `C34_which_is_a_substring_test_refuted`: [which] is a text and the registries whose names are parts of it are asked: a restriction to one registry by its name also admits others, and one of these may answer in its place.
* `C35_known_but_fails_refuted`: With two such files the registry claims to know the name and then raises; a registry of lower priority that has the file is not asked.
* `C35_local_directory_served_refuted`: A component kept in a directory of its own name, <name>/<name>.comp, is known but cannot be read: the directory is served.
* `C35_local_known_but_fails_refuted`: Two files of the name in different directories: known, and then an error.
* `C35_memory_case_refuted`: A component added under a name whose ending is not in lower case cannot be found by its name.
* `C35_other_component_served_refuted`: ... but [known] compares the ends of the texts. A registry that lists <prefix><name>.comp claims to know <name>, and serves the other component, for every prefix and name:.
* `C35_same_base_name_refuted`: Two directories with a file of the same base name: the first listed is used and nothing is reported.
* `C36_failing_file_read_again_refuted`: A file that cannot be interpreted is read again by every request.
* `C36_two_names_one_file_refuted`: The same file can be read twice when it is asked for under different names.
* `C37_files_silently_missing_refuted`: In particular an interruption between two lines leaves a listing that just lacks the remaining files, without any error.
* `C37_interrupted_write_refuted`: But an interruption at any point while the text is being written, for any listing, leaves a file with which the next start does not fetch and does not get the listing; the file stays as it is, so neither do all later starts.
* `C37_second_start_differs_refuted`: Blanks at a line's end are part of the value on the first start and are not on the following ones.
* `C37_start_fails_forever_refuted`: and one inside a file name makes every later start fail.
* `C38_acyclic_libraries_rejected_refuted`: Acyclic headers for which no order is found by the sorting of the code: the translation stops.
* `C38_circular_headers_never_end_refuted`: Headers that ask for each other are collected for ever, although include guards make them legal C.
* `C38_file_including_itself_never_ends_refuted`: a file that includes itself, though legal C with an include guard, is inserted again and again.
* `C38_header_before_the_one_it_needs_refuted`: A library that only a source asks for may be written before a header its own header needs.
* `C38_library_in_included_file_refuted`: a library asked for inside a file included by name is looked up as a file: without a file of exactly that name translation stops.
* `C38_library_of_two_sources_twice_refuted`: A library that only two sources ask for is written twice.
* `C38_own_header_never_ends_refuted`: a library only a source asks for, and whose own source asks for its own header, is never written.
* `C40_codeless_member_refuted`: A member without code (an Arm) spoils the saved state: the next member is given the particle displaced twice. Members stand at 1 and 2, the coordinate changes are those of Placement.v for an instrument in which the second component is skipped.
* `C40_user_variables_leak_refuted`: User variables set by a member that did not scatter stay set for the next.
* `C40_when_on_first_refuted`: A first member whose WHEN does not hold takes the SCATTERED of the component before the group for its own: the other members are never tried.
* `C41_counter_name_clash_refuted`: Two different jumps may share one counter (and a duplicate member in the C struct).
* `C41_jump_from_group_refuted`: A member of a group that has scattered the particle and whose JUMP to c is due: the particle goes to b after all, and b is given it without the change of coordinates.
* `C41_jump_from_last_member_refuted`: The JUMP of the last member of a group is lost as well if none has scattered: the particle is absorbed.
* `C41_jump_into_group_refuted`: A JUMP into a group, past its first member: a does not scatter, and the next member is given not the particle as it came in (9 - 3) but the one saved before the jump, moved as from the first member to the second.
* `C41_previous_of_first_refuted`: JUMP PREVIOUS in the first component: the generator takes target -1 and the loop never ends.
* `C41_stale_target_refuted`: The target is computed once and kept: the instrument of another translation, in which the component stands elsewhere, jumps to the wrong component.
* `C42_funnel_never_leaves_a_group_refuted`: In funnel mode no particle that scatters in a GROUP reaches the component after it, for every instrument.
* `C42_group_exit_refuted`: A concrete instrument with a GROUP on which funnel and trace loop differ.
* `C42_jump_ignored_refuted`: Jumps are ignored.
* `C43_jump_over_split_refuted`: A jump back over the SPLIT is followed by the last copy only; the other copies are lost. Half of the weight arrives at d.
* `C43_split_zero_refuted`: SPLIT 0, or a SPLIT that is the value of a parameter and happens to be 0: the loop never ends.
* `C44_parameter_named_like_coordinate_refuted`: A component parameter named like a particle coordinate: the component after it in TRACE has lost the macro of the coordinate.
* `C44_run_num_leaks_refuted`: mcget_run_num is defined for TRACE and never undefined: whatever the instrument, all code of SAVE, FINALLY and DISPLAY sees it as a reference to a particle that does not exist there.
* `C44_save_definitions_refuted`: Every instrument with code in SAVE and a parameter: the macro of each parameter lacks its closing parenthesis.
* `C45_control_before_digit_refuted`: A control character before a hexadecimal digit: the escape takes in the digit. ESC followed by a 3 does not even compile, a NUL followed by 1 is read as one character.
* `C45_latin_letters_refuted`: Every character from 128 to 255 (all accented Latin letters) is read as one byte, which is not its encoding: metadata written with an umlaut come back as invalid UTF-8.
* `C45_quote_in_unit_refuted`: A unit written with one double quote (inches) is written as it is, which is not a literal; so is a text with a quote inside.
* `C45_surrogate_refuted`: A lone surrogate, which Python uses for an undecodable byte of a file name, gives an invalid literal.
* `C45_trigraph_refuted`: Trigraphs, which -std=c99 switches on: a??/b (the slash makes a backslash) and a text ending in ??! are changed.
* `C46_existing_binary_refuted`: a binary that exists already is never run: the options are still a dictionary.
* `C46_mpi_with_acc_refuted`: a binary for MPI and OpenACC is compiled but cannot be run.
* `C46_nexus_is_lost_refuted`: every update that does not mention nexus switches it off, and with it the NeXus flags.
* `C46_windows_words_refuted`: on Windows a flag of several words stays one argument; on Linux its words are arguments. Linker option /DYNAMICBASE:NO goes to the compiler, as a macro definition.
* `C47_foreign_reference_refuted`: a reference to an instance outside the instrument becomes one to an instance of that name inside, or the file cannot be loaded.
* `C47_metadata_equality_refuted`: no object with metadata equals what is loaded for it.
* `C47_minimal_mode_refuted`: a loaded instance is never in minimal mode.
* `C47_overridden_type_refuted`: an operation whose data type was set to something else than that of its parts, as Expr.float does for the default of a component parameter, is written but can never be loaded.
* `C47_radians_refuted`: The degrees flag of a rotation part is not stored: a part in radian comes back in degrees.
* `C47_registry_priority_refuted`: The priority of a registry is not stored and comes back as the default.
* `C47_same_name_components_refuted`: two different components of one name: both instances come back with the second.
* `C47_unstorable_refuted`: integers that do not fit into 64 bits and texts with NUL cannot be saved.
* `C47_unsupported_class_refuted`: An instrument with an object of a class without handler (InMemoryRegistry, for instance) is saved without it.
* `C48_output_repeats_setting_refuted`: What is wrong with OUTPUT: a name may be used again there, though not in the other order.
* `C48_section_of_a_copy_is_appended_refuted`: a section given in a copied definition does not replace that of the original, it is executed after it.
* `C48_share_is_doubled_refuted`: SHARE COPY in a copied definition gives the shared code twice.
* `C49_array_and_scalar_refuted`: [int x;] then [int x[3];] or [int x = 3;]: not reported, the later one vanishes.
* `C49_array_is_declared_as_scalar_refuted`: the size of an array is not written into the structure: its member is the scalar.
* `C49_builtin_member_refuted`: a variable named like a member of the structure itself is accepted, whatever its type.
* `C49_contradictory_initial_values_refuted`: equality is not transitive: contradictory initial values pass when a declaration without one comes first, and are reported otherwise.
* `C49_types_of_one_name_refuted`: two component types of one name: the variables of the first are lost, even for its own instances.
* `C50_absolute_rotation_refuted`: ROTATED ... ABSOLUTE cannot be expressed when AT is relative: the angles become relative to the reference of AT, for every reference, every angle and both ways of writing it.
* `C50_failed_call_leaves_component_refuted`: a call that fails at its parameters leaves the component behind, so that the corrected call is refused.
* `C50_foreign_instance_refuted`: an Instance of another instrument is accepted as reference.
* `C50_spellings_refuted`: spellings: a component called aBSOLUTE cannot be a reference here, and previous does not mean PREVIOUS.
* `C52_quarter_turn_and_parameter_refuted`: ROTATED (90, phi, 0), phi a parameter: the turn about x is found as -90, whatever phi is. Of the two values that the code has in hand it takes the first.
* `C52_quarter_turn_refuted`: x and y both a quarter turn: the recovered angles describe another rotation.
* `C52_two_parameters_refuted`: ROTATED (psi, phi, 0), both parameters: the turn about x is found as an arctangent in radian, which is read as degrees. With psi above 90 the component faces the other way.
* `C53_call_without_arguments_refuted`: A call without arguments, f(): the alternative of the grammar for texts (McCommon.g4:43) also matches nothing and is visited as an empty text, so that the call is written with an argument.
* `C53_comparisons_refuted`: a < b == c < d is a < (b == c) < d.
* `C53_conditional_refuted`: a ? b : c ? d : e is (a ? b : c) ? d : e.
* `C53_element_of_parameter_refuted`: An element of a parameter, and a member of one, is not looked for in the structure of the parameters: s[0] with a text s.
* `C53_member_with_parameter_name_refuted`: A member of a structure with the name of a parameter is looked for in the structure of the parameters: x.gap.
* `C53_modulo_refuted`: a % b + c is a % (b + c) in an instrument file.
* `C53_not_refuted`: !a == b is !(a == b).
* `C53_or_and_refuted`: a || b && c is (a || b) && c.
* `C53_power_of_operation_refuted`: A power of anything in brackets, of a negated name, or of a call cannot be read: the operations have no power.
* `C53_shifts_refuted`: a << b >> c is a << (b >> c).
* `C54_component_dropped_refuted`: WHEN, EXTEND, JUMP, GROUP, SPLIT and metadata of the component named are dropped.
* `C54_split_again_refuted`: Neither part of a split can be split again: the parameter mcpl_filename exists already.
* `C54_unused_parameter_left_refuted`: remove_unused_parameters leaves a parameter that only the dropped component used.
* `C55_computed_default_refuted`: A default that is an operation, such as (1) or 2*k, stops the translation of the whole component type.
* `C55_computed_vector_refuted`: A vector given by an operation, such as a member of a structure or a function call, is accepted and replaced by NULL.
* `C55_conditional_text_refuted`: A conditional expression without brackets is refused for a text, although the same in brackets is accepted.
* `C55_declared_call_refuted`: Commas inside of a call or of nested brackets split an item.
* `C55_definition_parameter_refuted`: A DEFINITION parameter is neither a member of the structure nor stored (its macro still refers to the member).
* `C55_long_text_refuted`: A text that does not fit into the 16384 characters of the member is copied nevertheless.
* `C55_parameter_in_list_refuted`: An instrument parameter used inside of an initialiser list is written without its prefix; the bare name does not exist in the generated program.
* `C55_text_or_null_for_a_number_refuted`: A text or NULL given for a number or a vector is accepted, but the statement made from it is one for a text: it has no meaning for a number, and for a vector it writes through the null pointer.
* `C56_head_not_replaced_refuted`: The variable in front of a member, of [ ] or of -> is not replaced: x = y; z = x[q]; gives x[q], in terms of the old x.
* `C56_integer_variable_refuted`: A variable of integer type is given a value that is not an integer, where C would have dropped the fraction: int n; n = 3.5;.
* `C56_known_types_unchanged_refuted`: The types of the values of the caller are changed: a variable known as a float and asked for as an int, in an empty block of statements, is an int for the caller from then on.
* `C56_known_values_unchanged_refuted`: The dictionary of known values of the caller is changed, so that the same statements evaluated again with it give another result: x = x + 1; evaluated twice.
* `C56_member_name_refuted`: The name of a member is replaced by the value of a variable with the same name: b = 1; c = a.b; gives a.1.
* `C56_own_type_refuted`: A variable that was copied from another has the type of that one too: after x = 2.5; i = x; asked for x as a float and then for i as an int, x is an int as well; asked in the other order both are floats.
* `C57_escape_before_digit_refuted`: An escape at the end of a literal takes in digits of the next: "\x1" "2" is one character.
* `C57_final_quote_refuted`: A literal that ends in an escaped quote is written without its end.
* `C57_hexadecimal_arithmetic_refuted`: A hexadecimal literal is held as text, and multiplication and addition treat it as Python text: the product of a number and a hexadecimal literal, and the sum of two, are no numbers; the sum with a number and the negative raise TypeError. 2 * 0x10 becomes 0x100x10, -0x10 cannot be read.
* `C57_octal_refuted`: An octal literal is read by Python as decimal: 010 becomes 10.
* `C57_overflow_refuted`: A literal beyond the largest double is written as the Python word inf, which is not a number in C.
* `C57_prefix_refuted`: A literal with an encoding prefix, L"text", is written with the prefix inside the quotes.
* `C58_block_end_refuted`: A block of C that contains percent and closing brace ends there.
* `C58_comment_refuted`: The comment in front holds the name of the source file: with the end of a comment in it, the instrument cannot be read.
* `C58_default_dropped_refuted`: A default value that is not a constant -- an identifier or an operation -- is not written, and the parameter read has none.
* `C58_keyword_name_refuted`: A name that is also a keyword, in any of its spellings, is accepted for components made in Python and written as it is; the text cannot be read.
* `C58_rotated_runs_on_refuted`: False in general: when ROTATED is written, the writer puts neither a space nor a line break behind it, and GROUP, EXTEND, JUMP or METADATA runs into the name of the reference (or into ABSOLUTE). An instrument with such a component cannot be read, whatever else it contains.
* `C59_arguments_refuted`: Arguments of a pointer to a function that end in a round bracket lose it, and those after a blank keep the first one: void ( *f)(int ( * )(int)) becomes void ( * f)(int ( * )(int), which is no C.
* `C59_brackets_refuted`: Round brackets around a declarator are always taken for a pointer to a function: double (x) becomes the function double (x)(), and the pointer to an array double ( *p)[3] becomes double ( * p)([3]), which is no C.
* `C59_flat_refuted`: Without inner braces the items are counted, not the rows: int a[][2] = {1, 2, 3, 4} has two rows in C and becomes int a[4][2]; with three dimensions and braces of two levels the last dimension is lost: int a[][2][2] = {{1, 2, 3, 4}} becomes int a[1][2].
* `C59_literal_refuted`: An array with an initialiser that has no braces, as char name[16] = "abc", ends the translation with a division by zero: the sizes found in the initialiser are an empty tuple, and the number of dimensions is divided by its length.
* `C59_name_in_size_refuted`: A name that occurs at the start of the first size is removed from it: double N[N_MAX] becomes double N[_MAX], another size or no C. visitDirectDeclarator removes the text of the inner declarator with str.replace, which removes it everywhere.
* `C59_octal_refuted`: A size in octal is printed in decimal: int a[010], eight elements in C, becomes int a[10].
* `C59_omitted_refuted`: An omitted first size stays omitted when another size is not a number: int a[][N] = ... becomes the member int a[][N], which is no C inside of a structure, whatever the initialiser is.
* `C59_storage_refuted`: A storage class stays in the member: static int n; in a DECLARE section becomes the member static int n;, which is no C inside of a structure.
* `C59_trailing_comma_refuted`: A list that ends in a comma is counted with one item more: int a[] = {1, 2, 3,} has three elements in C and becomes int a[4].
* `C60_computed_default_refuted`: A default value that is computed, as double x = 2 * PI, ends the translation of the whole instrument: operations have no C type name.
* `C60_named_default_refuted`: A default value that is a name is not evaluated: the table has the characters of the name (double x = PI has the default text PI).
* `C60_no_default_refuted`: A parameter without default value has the text None in the table, as if None had been given, not an empty text: str of a missing value.
* `C60_prefix_refuted`: A text literal with a prefix (u8, u, U, L), which the grammar accepts, gets a second pair of quotes around it, and the row is no C.
* `C60_quote_in_unit_refuted`: A unit that contains a quote but is not one literal is not protected: with the unit a quote alone (inches), or with one inside, the row is no C. The code that means to escape a lone quote replaces it by itself.
* `C61_array_overwrites_refuted`: An array among the user variables is declared without its size (see C49), so that particle_setvar_void_array, given two elements or more, writes beyond the member: a member that follows without a gap gets the second element.
* `C61_function_pointer_refuted`: For a pointer to a function particle_setvar_void copies as many bytes as the type of the result has: with int four bytes of eight, the rest of the pointer stays.
* `C61_jump_names_refuted`: Names that contain underscores may give two different jumps the same counter: from a to b_c, and from a_b to c. The structure then declares a member twice, which is no C.
* `C61_jump_twice_refuted`: Two JUMPs of one instance to the same target, with different conditions, that both iterate declare the same counter twice.
* `C61_not_initialised_refuted`: User variables that are arrays, even with initial values, pointers, and variables of a type other than double, MCNUM and int without initial value keep, in every new particle, whatever the memory held before; only a warning is printed.
* `C61_other_type_refuted`: particle_getvar and particle_getuservar_byid read every user variable as if it was a double, whatever its type: for an int or float, whose member is shorter, the result depends on bytes that belong to other members.
* `C61_pointer_overwritten_refuted`: For a pointer among the user variables particle_setvar_void_array writes the elements into the pointer itself, not to where it points: afterwards the pointer consists of bytes of the data.
* `C62_default_vector_refuted`: A vector that an instance takes from the default value of its type is allocated by init and never freed: finally looks only at the parameters given to the instance.
* `C62_display_place_refuted`: While DISPLAY of a component without FINALLY runs, the message names no file and line.
* `C62_save_place_refuted`: While SAVE of a component runs, the message that is printed when the program is interrupted names file and line of its INITIALIZE section, or only the component if it has none, never of SAVE.
* `C63_fourth_table_refuted`: Two dimensional files with more than three variables are never written.
* `C63_hash_lost_refuted`: A value that ends in # loses it: a title like "run #" comes back without.
* `C63_no_bins_refuted`: A one dimensional file without bins is written as a header alone, which is not read again.
* `C63_square_file_refuted`: A one dimensional file with as many bins as variables (four, for the usual x, I, I_err, N) is written line by line and then taken for data that needs no transposing: what is read has lines and columns exchanged.
* `C63_two_dimensional_names_refuted`: Two dimensional files whose names differ cannot be combined, though names are among the values to be joined: the line above a table is read as a key with the name of the file in it, and the second file's is not among the keys of the first.
* `C64_label_without_unit_refuted`: There are no axes for a file whose label has no unit.
* `C64_limits_as_edges_refuted`: If the limits of the header are the outer edges of the n bins (what the C runtime writes is not part of this model), the boundaries are not those edges: the first one is less than the lower limit by half a bin.
* `C64_parameter_hides_limits_refuted`: An instrument parameter named like the key of the limits hides it: the axis runs between the two numbers of the parameter. A single number there leaves no axes.
* `C64_single_bin_refuted`: There are no axes for a file with one bin, whatever its header says: the width of a bin is a division by zero.
* `C65_directory_with_blank_refuted`: A directory with a blank in its name is cut: the program writes somewhere else.
* `C65_short_names_refuted`: In a scan an option given by its short name is lost: no run gets it, though a single run would.
* `C65_value_with_blank_refuted`: A parameter with a blank in its value is cut: the program gets the value up to the blank and a stray word.
* `C66_directory_refuted`: With a directory (option -d) nothing is run: the directory is a text, its methods mkdir and parent do not exist.
* `C66_executable_file_refuted`: A file that may be executed is taken for a binary, and no binary that exists is ever started: the target is a dictionary where an object is needed.
* `C66_no_parameters_refuted`: Without parameters nothing is run, even if the instrument has none.
* `C66_old_binary_refuted`: A file that stands where the binary should go is run instead, whatever it was made from: a changed instrument is not compiled again.
* `C66_process_count_refuted`: A number of processes is passed on as a list: mpirun gets -np [4].
* `C66_python_run_refuted`: mcstas_run and mcxtrace_run pass their arguments in another order than mccode_run takes them: the generator is taken for the directory.
* `C66_same_name_lost_refuted`: Of two files of the same name in different directories one is lost.
* `C67_instances_alike_refuted`: The metadata of a component type carry the name of the type: for any number of instances of it the table has that many equal elements, none with the name of an instance.
* `C67_name_with_blank_refuted`: A name with a blank gets quotes, which are written between quotes: the table with one such name is no C, whatever else is in it.
* `C68_instance_instrument_refuted`: An instance called instrument: its variable is the one of the instrument.
* `C68_split_copy_refuted`: SPLIT on an instance a and on one called a_particle: the structure has two members of one name.
* `C68_type_and_parameters_refuted`: Two types of which one is called like the parameters of the other.
* `C68_type_of_the_program_refuted`: A component type particle or instrument makes a second type of a name that the program uses.
* `C69_copy_names_refuted`: Instances of an included file that are named by COPY get their number from the included file alone: where the text in place has Comp_2, the included instance is Comp_1.
* `C69_included_dependency_refuted`: DEPENDENCY of an included instrument is read and then dropped: neither the instrument nor the reader has it, so the program is compiled without it.
* `C69_myself_refuted`: MYSELF in an expression is never read: the visitor asks for an attribute that is set nowhere.
* `C69_removable_flags_refuted`: The type of a REMOVABLE instance that is left out has been read all the same: its DEPENDENCY stays.
* `C69_two_levels_refuted`: A file that is included by an included file does not see the instances of the outermost one: AT (0,0,1) RELATIVE a is an error there, though the same text in place is read.
* `C70_own_dependency_refuted`: Reader.get_instrument, which the command line uses, replaces the flags of the instrument: a DEPENDENCY line of the .instr file itself has no effect.
* `C70_search_refuted`: The functions of the loader keep the registries they were given: a registry that SEARCH added, from which component types were read, is not among those of the instrument, so GETPATH and the libraries of these types are not found there.
* `C71_backslash_refuted`: A backslash in a configured value is an escape: the path of a directory that starts with n becomes a line break, one that starts with l makes the translation fail.
* `C71_order_refuted`: The order is that of a set, which is another one in another run: a library that another one needs comes before it or after it.
* `C71_quotes_refuted`: A flag of a component that ends with a quoted text loses the last quote: the word handed to the compiler is not the one written.
* `C71_text_between_refuted`: Keywords are put in one name after the other, in the whole text: a name that stands between two other keywords is taken for a keyword when that name is one elsewhere before them.
* `C72_computed_element_refuted`: A list with an element that is computed cannot be read either.
* `C72_definition_name_refuted`: A default that is the name of a DEFINITION parameter of the type, or of a parameter of the type that is copied, is taken for a parameter of the instrument: the member gets the value of that one.
* `C72_integer_array_refuted`: No component with an array of integers can be read.
* `C73_more_text_refuted`: Not everything that is given is used: when the text has several parameters, all but the first are dropped without a word.
* `C73_text_without_quotes_refuted`: A text without quotes as a value: the parameter is added, but no C can be made for it, and the instrument file has no default value for it.
* `C73_unit_first_refuted`: The form that the usage text of the module shows, par2=('m', 100), unit first, is not understood: the unit is empty and the parameter is a vector in C, of a text and a number.
* `C73_unit_not_read_refuted`: Units are meant to be given as in the usage text, without quotes, or not at all; either is stored as it is (C73_parameters). The instrument file then has [/m] or [/] behind the name, where the grammar wants a slash and a text in quotes: the file of such an instrument, whatever else is in it, is not read.
* `C73_user_type_refuted`: A variable of that name but of another type: nothing is added and nothing is raised; the variable asked for does not exist.
* `C73_user_variables_refuted`: Several declarations in one text: only the first is compared with what there is, but the whole text is added. A later variable that was there is then declared twice in the particle structure.
* `C73_whole_float_refuted`: A float is not always a double: a whole number, such as 3.0, makes an int parameter, which takes no value such as 3.5 when the instrument is run.
* `C74_copied_relative_jump_refuted`: A copied jump to PREVIOUS, NEXT or MYSELF does not count from the copy: the two instances share the jump, whose target is computed for the first and then kept. The copy of a component with JUMP MYSELF jumps to the original.
* `C74_made_name_refuted`: The name made for a copy may be one that is already written out: the file is refused.
* `C74_metadata_source_refuted`: The metadata a copy has from its original names the original as its source.
* `C74_repeated_parameter_refuted`: The same list of stated parameters counts differently: of two values for one parameter the first counts for an instance of a definition, the last for a copy.
* `C75_earlier_translation_refuted`: The values of a registry called mcstas stay in the configuration: a later translation with another library gets the version of the earlier one.
* `C75_macro_order_refuted`: A minor number of 100 or more makes two versions change places.
* `C75_own_header_refuted`: A copy of the header in a directory that is searched first does not replace the one of the library: with two registries that have it the translation ends with an error.
* `C75_version_in_the_header_refuted`: The registry that has the header is called libc, the keys are looked up under mcstas: the header of a translated instrument has no version, the number 0 and the date 1970-01-01.
* `C75_version_of_the_text_refuted`: The text may come from one registry and the version from another: a directory with two copies of the header is the first that knows it, but only the library lists it once.
* `C76_again_github_refuted`: From Python: a registry of the fourth form is added again, its base URL is not the one written.
* `C76_name_like_directory_refuted`: A description with a URL is passed over when its name is that of a searched directory.
* `C76_search_again_refuted`: The same SEARCH twice searches the directory twice: the comparison keeps the marks.
* `C76_search_github_refuted`: SEARCH with name, URL, version and file makes a registry whose name begins with a quotation mark and whose list of files is looked for under a name that ends with one.
* `C76_search_named_directory_refuted`: SEARCH with a name and a directory, the second documented form, is an error.
* `C76_shell_directory_refuted`: A command that prints a directory and the end of the line is an error.
* `C77_get_full_refuted`: `config get` without a key is said to give the full configuration; it prints the first source only.
* `C77_list_selects_refuted`: `config list` with a regular expression prints all keys: the expression is not looked at (`matches` is any meaning of expressions that tells two keys from each other).
* `C77_list_shows_all_refuted`: `config list` and `config get flags` print the table of the first source that has the key: a setting that is in effect below a table of the user's file, but comes from the defaults, is not shown.
* `C77_remove_empty_name_refuted`: An empty name, as of an unset shell variable, removes every cache though one was to be named.
* `C77_remove_inside_refuted`: A name that is an absolute path, or goes up, or is empty, is joined as it is: files outside of the cache are removed, or the whole cache.
* `C77_save_keeps_refuted`: A save while a variable of the environment sets one entry of a table writes only that entry for the whole table: the user's other entries of the table are gone from the file.
* `C77_set_is_kept_refuted`: `config set` followed by any other command: the next program does not know the value.
* `C77_set_then_save_refuted`: `config set`, `config save` and `config get` as three commands: the file has the old value.
* `C77_unset_refuted`: `config unset` deletes a local name: neither the program's settings nor the file change, and a value that was there is still there.
* `C78_all_parameters_refuted`: The parameters of included instrument files are parameters of the instrument; reading only the parameters leaves them out without notice.
* `C78_int_default_refuted`: The default of an int parameter is only marked as an integer: int n = 2.5 keeps 2.5.
* `C78_myself_refuted`: MYSELF in an expression of a component instance stops both ways of reading, though the grammar has it: both visitors ask for an attribute that is set nowhere.
* `C78_previous_refuted`: PREVIOUS in an expression of a component instance: the whole file is read (PREVIOUS is the name of the last component), but the parameters alone are not: InstrParametersVisitor has no attribute destination.
* `C79_directory_refuted`: The directories in front of the name of an instrument (for example in a percent-include line) only count for files reached from the working directory: asked for a path a registry lists, the reader may read another file of the same name.
* `C79_library_elsewhere_refuted`: The functions of the loader leave the registries of the instrument in the order given, while components are looked for by priority: the library of a component can come from another registry than the component.
* `C79_memory_instrument_refuted`: An instrument file added to an InMemoryRegistry with add_instr is known to the reader but can never be read: the registry gives no path.
* `C79_text_and_name_refuted`: An instrument file is looked for a second time, under the name of the file found first. If a registry has no such file but a single one with a longer name, the second search can end in another registry: the text read is not that of the file the instrument is said to come from.
* `C80_block_refuted`: The statement without the conditions on the C code is false: of a block with a less-than sign before a letter the page shows the text before it, and nothing of the block from there to the next greater-than sign.
* `C80_metadata_quote_refuted`: The statement with metadata is false: each group of metadata is shown with one quote more than its text has.
* `C81_tag_exists_refuted`: But the tag used need not be a tag: after v3.6.0-rc1 the tag [latest] is v3.6.0, which nobody has made yet, and can be asked for; whatever tags follow.
* `C82_category_name_refuted`: Nor is a category that is stated as a name ever used: such a file cannot be read.
* `C82_instances_refuted`: In general others are named too: asking for optics gives the instances of any category with these letters in it, asking for the empty text gives all.
* `C82_memory_category_refuted`: But the category of a file kept in memory is the name of the file.
* `C83_configured_later_refuted`: A compiler configured after a failed trial is not tried: the process keeps refusing, although a new process would compile.
* `C83_existing_binary_refuted`: A binary that exists already is refused without a working compiler, and is returned for any other target with one.
* `C83_mpi_with_acc_not_tried_refuted`: Nor are the flags for MPI if OpenACC is wanted as well.
* `C83_name_with_dot_refuted`: A name with a dot, possible for instruments made in Python, loses what follows it.
* `C83_nexus_not_tried_refuted`: The flags for NeXus are not part of any trial: a compiler that cannot use them passes, and the compilation fails with the messages of the compiler.
* `C83_used_untried_refuted`: And one configured after a successful trial is used untried.
* `C83_variable_in_name_refuted`: A compiler configured through an environment variable, as `$GCC`, is looked for under that very name and refused, although the name is expanded for compiling.
* `C84_first_lines_refuted`: In the first four lines of a source of five lines or more, neither the line in question nor any line before it is shown: the mark is under nothing.
* `C85_text_kept_refuted`: A text that looks like a number is not handed on as it is, whatever the type of the parameter: different texts reach the instrument as the same one, a leading zero or an underscore is lost, and the word Infinity is shortened.
* `C85_text_with_colon_refuted`: A text with a colon cannot be given as the value of a parameter: a path with a drive is refused, and a time of day becomes a range of numbers.
* `C86_made_beside_read_refuted`: The same holds for one instance made with a name beside one that came from a file: in particular for an instrument with an MCPL_output that is split at another component.
* `C86_made_by_name_refuted`: Two instances that were made with the name of their component have two objects of the same text, only one of which is translated: translating the instrument fails for every component with any code, whatever else the instrument has.
* `C86_outcome_repeats_refuted`: The same translation that failed succeeds when it is tried again: the first one has changed the objects.
* `C87_assembled_instrument_refuted`: An instrument put together by a program has no file, yet a file of the name interactive is embedded as its text.
* `C87_carriage_returns_refuted`: A file with carriage returns is embedded without them, so the text is not the file; the text is still the one that was read.
* `C87_changed_file_refuted`: The file is read anew: whatever it holds by then is embedded, though the instrument was made from another text. If it can no longer be read, the executable tells to use the option that was used.
* `C87_loaded_instrument_refuted`: Of an instrument that was loaded with load_mcstas_instr no executable with its text can be made, whatever the file.
* `C88_half_turn_refuted`: A half turn is not described: its matrix is no rotation.
* `C88_sense_unnoticed_refuted`: Otherwise a wrong sense is unnoticed: around the diagonal through any angle from 120 to below 180 degrees, the opposite vector comes with the angle of the opposite rotation.
* `C88_specialized_half_turn_refuted`: A true half turn around x, as the product of two quarter turns, is replaced by RotationX(180), which is no rotation.
* `C89_branch_refuted`: an instrument whose library is that of a branch, not of a version, is not translated at all: the test for a warning raises.
* `C89_list_not_compared_refuted`: equal registries need not serve the same files: the list of files is not compared.
* `C89_placeholder_refuted`: a registry that could not be loaded from a file is not even equal to itself.
* `C89_two_versions_refuted`: an instrument that has a library of another version keeps it and gets the other one too; a header that both have, such as mccode-r.h.in, then cannot be configured, so that the instrument is not translated.
* `C90_known_but_not_read_refuted`: A file may be known and still not be read, although another registry has it.
* `C90_local_found_not_served_refuted`: Since then files are found, but under a root with a leading slash, as it is from the command line, the registry raises if it is asked for any name found.
* `C90_local_search_refuted`: Before Python 3.13 a search in a local registry never finds a file: every result is the root or a directory.
* `C90_unique_elsewhere_refuted`: The reader may say that a file is unique where the text comes from another registry than the one that has it uniquely.
* `C90_unique_in_memory_refuted`: A registry in memory never says that a file is unique.
* `C91_far_back_refuted`: With a last further back than the first component, all components but one are copied instead of none.
* `C91_jump_of_the_split_component_refuted`: The component at which an instrument is split is in both parts, and both have the same jumps: once the first part is translated, the second jumps to where that component is in the first. Here a component with JUMP PREVIOUS.
* `C91_renaming_the_original_refuted`: A copy refers to components of the original: when one of these is given another name the copy refers to a component it does not have.
* `C91_split_after_translating_refuted`: An instrument that was translated before it is split gives a second part whose jumps go to other components than those they name.
* `C92_conditions_refuted`: an instrument parameter in SPLIT, WHEN or JUMP of a component that was added with an Assembler is a mere name in the C program, whenever it was added.
* `C92_coordinate_product_refuted`: a coordinate that is given as the text of a product is a mere text in the C program, though it names an instrument parameter.
* `C92_included_refuted`: in an included file, a parameter of the including file alone is a mere name in a position or a condition, though not in the value of a parameter.
* `C92_late_refuted`: a position that names a parameter which is added after the component is a mere name in the C program.
* `C92_member_refuted`: a member of a structure that has the name of an instrument parameter is written as the parameter, so that the C program has a name with two structures.

Seen while reading, not the subject of a theorem:

* `Value.value` setter stores a boolean in `_object` (expression.py:690). `Value.float(1) == Value.int(1)` though their texts, and so their hashes, differ (not expressible over the rationals).
* The order of the flags of `decoded_flags` and of the roots in `sort_include_hierarchy` comes from a set and may change from run to run.
* EXTEND and METADATA blocks gain newlines on each write/read cycle. `from_instance` (COPY) copies neither removable nor cpu nor split.
* The Assembler never calls `determine_groups`; its docstring shows the unit tuple reversed.
* `visitExpressionMyself` uses attributes that do not exist (`self.current_instance`, `self.instance`); `visitCategory` (comp/visitor.py:44) says `ctx.Identifer()`; `visitComponentParameterIntegerArray` calls `ctx.assign()`.
* `dim_metadata` has the key `lenght`.
* In-memory instruments cannot be read by `get_instrument`; in-memory components have the file name "None".
* SPLIT keeps a copy of only the first word of the random state.
* `strcmp` is redefined under OPENACC and never restored; `undef_trace_section` undefines `printf`, which was not defined; names and mime types of metadata are written to C unescaped.
* HDF5: a list with None cannot be loaded; a ModuleRemoteRegistry with a Path as filename cannot be stored; a registry that is not available when loading is replaced by a placeholder.
* `mcpl_split` with an empty file name raises IndexError.

## Trusted base

* Coq 8.16.1: kernel, `coqc`, `coqchk`; no plugins beyond those of the distribution, no switched-off checks.
* No axioms of our own. `Print Assumptions` stands below every theorem in `Properties_*.v`; the result for each theorem is listed below. The axioms are those of the standard library's reals (`ClassicalDedekindReals.sig_forall_dec`, `sig_not_dec`, `FunctionalExtensionality.functional_extensionality_dep`, `Classical_Prop.classic`).
* The model: that the Gallina functions compute what the cited Python lines compute (read by hand, the code was not run), within the simplifications of the table above.
* The specifications: `sem` (ExprSem.v), the readers of C (Print.v, CText.v), RaySpec.v, the affine maps of Properties_Orient.v, and the small definitions at the head of each section of a Properties file.
* For C14, C15, C39–C44, C51, C55: the meaning given to the emitted C and to the McCode run time functions, whose source is not in the repository.

Assumptions per theorem (from `Print Assumptions`):


* No axioms (`Closed under the global context`) — 666 theorems: C01_operators_preserve_value, C01_negation_preserves_value, C01_operators_defined, C01_formula_value, C01_formula_defined, C01_operation_plus_number_refuted, C02_simplify_preserves_value, C02_simplify_no_new_identifiers, C03_floor_division_partial, C03_floor_division_defined, C03_floor_division_by_one_refuted, C03_identifier_floor_one_refuted, C03_power_partial, C03_zero_power_refuted, C03_power_of_operation_refuted, C03_zero_divisor_reported, C03_zero_divisor_of_operation_reported, C03_zero_over_zero_refuted, C03_round_of_integer_typed_quotient_refuted, C04_evaluate_is_substitution_partial, C04_known_identifiers_disappear, C04_member_name_refuted, C04_second_evaluation_refuted, C05_independent_is_constant_partial, C05_occurring_names_reported, C05_membership_sound, C05_hidden_dependence_refuted, C06_promotion_is_a_join, C06_order_and_brackets_do_not_matter, C06_reported_type, C07_characters_read_back_partial, C07_read_write_read_characters, C07_c_reads_the_value_partial, C07_instrument_reads_the_value_partial, C07_read_write_read, C07_quotient_by_product_refuted, C07_after_evaluate_refuted, C07_power_refuted, C07_negative_power_refuted, C07_floor_division_refuted, C07_abs_refuted, C07_sum_of_comparison_refuted, C07_two_signs_refuted, C07_two_signs_after_evaluate_refuted, C07_member_named_like_parameter_refuted, C08_folding_agrees_partial, C08_division_refuted, C08_floor_division_refuted, C08_round_of_constant, C08_round_refuted, C09_equality_is_an_equivalence_partial, C09_equal_means_same_value_partial, C09_expr_equality_symmetric, C09_symmetry_refuted, C09_same_value_refuted, C09_equal_expressions_hash_alike_partial, C09_equal_values_hash_alike, C09_equal_sums_hash_differently_refuted, C09_operations_have_no_hash_refuted, C10_exactly_the_parameters_are_flagged, C10_nothing_else_changes, C10_value_kept, C10_idempotent, C10_flagged_iff_named, C10_hidden_identifier_refuted, C16_names_stay_unique, C16_addition_effect, C16_lookup_by_name, C16_missing_name_raises, C17_parameters_stay_unique, C17_first_definition_wins, C17_repeat_is_an_error, C18_one_entry_last_writer, C18_entry_count, C18_instance_overrides_component, C18_instrument_collects_all, C19_references_point_backwards, C19_resolution_partial, C19_copy_of_unknown_raises, C19_included_components, C19_unknown_reference_refuted, C19_previous_zero_refuted, C19_previous_too_far_refuted, C20_groups_match_components, C20_leader_first_last, C20_second_call_refuted, C21_split_keeps_components, C21_second_part_closed, C21_kept_references, C21_groups_stale_refuted, C22_mentioned_parameters_survive, C22_only_removes, C22_reported_count, C22_uservars_refuted, C23_history_determines_value_partial, C23_refusals, C23_refused_overwrite_refuted, C23_repeat_stored_refuted, C24_make_instance_partial, C24_group_and_removable_refuted, C25_expands, C25_only_well_formed, C25_terminates, C25_error_kinds_partial, C25_plain_text_unchanged, C25_key_at_end_refuted, C25_expansion_rescanned_refuted, C26_instance_characters_partial, C26_instance_round_trip_partial, C26_trace_round_trip_partial, C26_split_lost_refuted, C26_removable_lost_refuted, C26_absolute_rotation_lost_refuted, C26_counted_jump_refuted, C26_jump_name_lost_refuted, C26_translated_jump_refuted, C27_range_lists_its_grid_partial, C27_range_iteration_terminates, C27_constructor_rejects, C27_single_point_range, C27_range_lists_its_grid_refuted, C27_empty_range_length_refuted, C28_linear_scan_count_and_values, C28_grid_scan_complete_partial, C28_grid_scan_count_refuted, C28_linear_scan_rejects_mismatch, C28_one_element_list_refuted, C29_one_run_per_point_partial, C29_runs_ignore_point_values, C29_runs_get_point_values_refuted, C30_command_line_parse, C30_command_line_accepts, C30_reading_unique, C30_sort_args, C30_negative_value_refuted, C31_data_added, C31_order_does_not_matter, C31_grouping_does_not_matter, C31_ncount_added, C31_contradictions_reported_partial, C31_compatible_files_combine, C31_zero_dimensional_refuted, C31_error_bars_refuted, C31_contradiction_accepted_refuted, C31_totals_in_header_refuted, C31_order_decides_success_refuted, C31_square_file_refuted, C31_columns_read_partial, C32_ncount_other_directory_refuted, C32_parameter_lost_refuted, C33_round_trip, C33_what_is_read_is_well_formed, C33_read_write_read, C33_text_determines_description, C33_empty_name_refuted, C33_marker_in_value_refuted, C34_registries_sorted, C34_best_registry_answers, C34_component_names_never_raise, C34_lower_priority_changes_nothing, C34_later_of_equal_priority_changes_nothing, C34_search_ignores_priority_refuted, C34_priority_after_construction_refuted, C34_which_is_a_substring_test_refuted, C34_which_partial, C35_listed_file_is_served, C35_served_file_is_listed, C35_other_component_served_refuted, C35_known_but_fails_refuted, C35_same_base_name_refuted, C35_local_file_is_served_partial, C35_local_directory_served_refuted, C35_local_known_but_fails_refuted, C35_memory_serves_the_last, C35_memory_case_refuted, C35_memory_has_no_path, C36_same_definition_for_a_name, C36_read_at_most_once, C36_different_names_different_objects, C36_failing_file_read_again_refuted, C36_circular_copies_fail, C36_two_names_one_file_refuted, C37_complete_listing_is_read_back, C37_second_start_agrees, C37_second_start_differs_refuted, C37_interrupted_before_opening_partial, C37_interrupted_write_refuted, C37_files_silently_missing_refuted, C37_start_fails_forever_refuted, C37_bad_download_is_not_kept, C38_each_library_once_in_order, C38_acyclic_libraries_are_collected, C38_circular_headers_never_end_refuted, C38_acyclic_libraries_rejected_refuted, C38_library_in_included_file_refuted, C38_file_including_itself_never_ends_refuted, C38_sources_once_partial, C38_library_of_two_sources_twice_refuted, C38_header_before_the_one_it_needs_refuted, C38_own_header_never_ends_refuted, C38_chain_of_three_is_ordered, C39_components_in_order, C39_never_twice, C39_all_called, C40_groups_are_alternatives_partial, C40_when_on_first_refuted, C40_codeless_member_refuted, C40_user_variables_leak_refuted, C41_groups_and_jumps_partial, C41_jump_from_group_refuted, C41_jump_from_last_member_refuted, C41_jump_into_group_refuted, C41_loop_follows_jumps, C41_counters_start_at_zero, C41_iterate_count, C41_named_target, C41_relative_target, C41_unknown_target_raises, C41_stale_target_refuted, C41_previous_of_first_refuted, C41_counter_name_clash_refuted, C42_funnel_agrees_partial, C42_funnel_never_leaves_a_group_refuted, C42_group_exit_refuted, C42_jump_ignored_refuted, C43_random_numbers_go_on, C43_calls_with_splits, C43_weight_between_neighbours, C43_weight_everywhere, C43_terminates_partial, C43_weight_conserved, C43_split_zero_refuted, C43_jump_over_split_refuted, C44_no_component_macro_leaks, C44_own_names_are_visible, C44_nothing_else_changes_partial, C44_run_num_leaks_refuted, C44_parameter_named_like_coordinate_refuted, C44_definitions_balanced_partial, C44_save_definitions_refuted, C45_literal_reads_as_text_partial, C45_ascii_text_survives, C45_latin_letters_refuted, C45_control_before_digit_refuted, C45_trigraph_refuted, C45_surrogate_refuted, C45_parameter_table_partial, C45_quote_in_unit_refuted, C46_options_survive_updates_partial, C46_nexus_is_lost_refuted, C46_target_of_a_compilation, C46_command_starts_with_the_compiler, C46_flags_exactly_when_requested, C46_linker_words, C46_windows_flags_partial, C46_windows_words_refuted, C46_run_command, C46_mpi_with_acc_refuted, C46_existing_binary_refuted, C47_object_round_trip, C47_instrument_round_trip_partial, C47_unsupported_class_refuted, C47_registry_priority_refuted, C47_radians_refuted, C47_overridden_type_refuted, C47_unstorable_refuted, C47_metadata_equality_refuted, C47_minimal_mode_refuted, C47_same_name_components_refuted, C47_foreign_reference_refuted, C47_other_version_refused, C47_other_class_refused, C48_names_are_distinct_partial, C48_effect_of_an_addition, C48_parameter_by_name, C48_output_repeats_setting_refuted, C48_copy_keeps_and_adds_parameters, C48_definitions_are_unambiguous, C48_redefining_a_copied_parameter_is_refused, C48_sections_partial, C48_section_of_a_copy_is_appended_refuted, C48_share_is_doubled_refuted, C49_members_have_distinct_names, C49_members_are_the_wanted_ones, C49_members_are_as_declared, C49_numbers_of_instrument_variables, C49_disagreement_in_text_is_reported_partial, C49_repetition_is_accepted, C49_array_is_declared_as_scalar_refuted, C49_array_and_scalar_refuted, C49_contradictory_initial_values_refuted, C49_member_lines, C49_builtin_member_refuted, C49_types_of_one_name_refuted, C50_call_agrees_with_file_partial, C50_unknown_reference_is_refused, C50_program_agrees_with_file_partial, C50_absolute_rotation_refuted, C50_foreign_instance_refuted, C50_spellings_refuted, C50_failed_call_leaves_component_refuted, C51_index_of_component, C51_index_identifies, C51_address_of_component_parameters, C51_address_of_user_variable, C53_same_reading_partial, C53_modulo_refuted, C53_or_and_refuted, C53_not_refuted, C53_comparisons_refuted, C53_shifts_refuted, C53_conditional_refuted, C53_texts_are_trees, C53_expression_has_the_value_of_the_text_partial, C53_numeric_texts_are_accepted, C53_names_are_marked, C53_member_with_parameter_name_refuted, C53_element_of_parameter_refuted, C53_power_of_operation_refuted, C53_call_without_arguments_refuted, C54_flags, C54_components_around_the_file, C54_same_file, C54_reader_is_absolute, C54_second_part_closed, C54_succeeds, C54_split_again_refuted, C54_component_dropped_refuted, C54_unused_parameter_left_refuted, C55_parameters_are_stored_partial, C55_text_or_null_for_a_number_refuted, C55_computed_vector_refuted, C55_parameter_in_list_refuted, C55_long_text_refuted, C55_conditional_text_refuted, C55_definition_parameter_refuted, C55_computed_default_refuted, C55_declared_variables_are_initialised_partial, C55_declared_call_refuted, C56_type_of_last, C56_types_as_asked_partial, C56_own_type_refuted, C56_known_types_unchanged_refuted, C56_symbolic_values_partial, C56_simple_assignments_are_evaluated, C56_integer_variable_refuted, C56_member_name_refuted, C56_head_not_replaced_refuted, C56_known_values_unchanged_refuted, C57_integer_kept_iff_partial, C57_octal_refuted, C57_float_kept_partial, C57_overflow_refuted, C57_hexadecimal_arithmetic_refuted, C57_strings_kept_partial, C57_final_quote_refuted, C57_escape_before_digit_refuted, C57_prefix_refuted, C58_instrument_characters_partial, C58_rotated_runs_on_refuted, C58_comment_refuted, C58_default_dropped_refuted, C58_keyword_name_refuted, C58_block_end_refuted, C59_members_partial, C59_name_in_size_refuted, C59_literal_refuted, C59_omitted_refuted, C59_trailing_comma_refuted, C59_flat_refuted, C59_octal_refuted, C59_brackets_refuted, C59_arguments_refuted, C59_storage_refuted, C60_table_partial, C60_no_default_refuted, C60_named_default_refuted, C60_computed_default_refuted, C60_quote_in_unit_refuted, C60_prefix_refuted, C61_read_by_name_partial, C61_write_by_name_partial, C61_write_then_read, C61_addresses, C61_restore, C61_read_by_number, C61_initial_values_partial, C61_start, C61_other_type_refuted, C61_array_overwrites_refuted, C61_pointer_overwritten_refuted, C61_function_pointer_refuted, C61_not_initialised_refuted, C61_jump_counters_partial, C61_jump_names_refuted, C61_jump_twice_refuted, C62_functions_are_distinct, C62_init, C62_save, C62_finally, C62_display, C62_freed_was_allocated_partial, C62_default_vector_refuted, C62_save_place_refuted, C62_display_place_refuted, C63_written_is_read, C63_written_again, C63_written_has_all_keys, C63_combination_is_sound, C63_combined_file, C63_read_is_sound, C63_square_file_refuted, C63_fourth_table_refuted, C63_no_bins_refuted, C63_two_dimensional_names_refuted, C63_hash_lost_refuted, C64_items, C64_boundaries, C64_axes, C64_unit, C64_single_bin_refuted, C64_label_without_unit_refuted, C64_parameter_hides_limits_refuted, C64_limits_as_edges_refuted, C65_single_run, C65_scan_runs, C65_short_names_refuted, C65_value_with_blank_refuted, C65_directory_with_blank_refuted, C66_command_line, C66_no_parameters_refuted, C66_directory_refuted, C66_process_count_refuted, C66_old_binary_refuted, C66_executable_file_refuted, C66_python_run_refuted, C66_results, C66_same_name_lost_refuted, C67_table, C67_from_file, C67_marked_value, C67_name_with_blank_refuted, C67_instances_alike_refuted, C68_names, C68_type_of_the_program_refuted, C68_instance_instrument_refuted, C68_type_and_parameters_refuted, C68_structures, C68_control_members, C68_split_copy_refuted, C69_text_in_place, C69_removable, C69_parts, C69_copy_names_refuted, C69_two_levels_refuted, C69_included_dependency_refuted, C69_removable_flags_refuted, C69_myself_refuted, C70_ways, C70_types, C70_own_dependency_refuted, C70_search_refuted, C71_keywords, C71_meaning, C71_backslash_refuted, C71_text_between_refuted, C71_literal, C71_quotes_refuted, C71_each_once, C71_same_words, C71_order_refuted, C72_types, C72_defaults, C72_integer_array_refuted, C72_computed_element_refuted, C72_definition_name_refuted, C73_parameters, C73_names_stay_different, C73_repeated, C73_every_argument, C73_written_type, C73_text_is_read, C73_more_text_refuted, C73_unit_first_refuted, C73_whole_float_refuted, C73_text_without_quotes_refuted, C73_unit_not_read_refuted, C73_user_variable, C73_user_variables_refuted, C73_user_type_refuted, C74_copy, C74_plain, C74_chain, C74_stated_jump_target, C74_named_jump_target, C74_made_name_is_new, C74_copied_relative_jump_refuted, C74_repeated_parameter_refuted, C74_metadata_source_refuted, C74_made_name_refuted, C75_keys_are_replaced, C75_other_text_is_kept, C75_text_with_keys, C75_configured_header, C75_header_is_written, C75_macro_keeps_order, C75_macro_order_refuted, C75_earlier_translation, C75_embedded_file, C75_version_in_the_header_refuted, C75_own_header_refuted, C75_version_of_the_text_refuted, C75_earlier_translation_refuted, C75_registry_text_is_one_line, C75_unique_means_one, C76_documented_forms, C76_accepted_place, C76_at_most_one, C76_again, C76_later_first, C76_search_directory, C76_search_of_words, C76_shell_last_line, C76_shell_lines, C76_shell_of_words, C76_search_named_directory_refuted, C76_search_github_refuted, C76_search_again_refuted, C76_again_github_refuted, C76_name_like_directory_refuted, C76_shell_directory_refuted, C77_set_in_session, C77_save_and_start_again, C77_get_prints_value, C77_get_finds_value, C77_get_below_text, C77_set_is_kept_refuted, C77_set_then_save_refuted, C77_unset_refuted, C77_list_selects_refuted, C77_list_shows_all_refuted, C77_get_full_refuted, C77_save_keeps_refuted, C77_list_top_keys, C77_remove_exactly, C77_remove_asks, C77_remove_inside_refuted, C77_remove_empty_name_refuted, C77_cache_list, C78_same_parameters, C78_included_parameters, C78_parameters_are_declared, C78_parameters_are_read, C78_previous_refuted, C78_all_parameters_refuted, C78_int_default_refuted, C78_myself_refuted, C79_search_order, C79_file_first, C79_one_file_is_read_partial, C79_text_and_name_refuted, C79_directory_refuted, C79_memory_instrument_refuted, C79_memory_instrument_kept, C79_default_output, C79_distribution_added, C79_library_beside_component, C79_library_elsewhere_refuted, C80_page_shows_text_partial, C80_value_shown, C80_block_refuted, C80_metadata_quote_refuted, C81_tags_found, C81_latest, C81_requested, C81_always_a_version, C81_tag_exists_refuted, C81_one_version, C81_kept_apart, C82_stated, C82_copy, C82_guessed_remote, C82_guessed_local, C82_memory_category_refuted, C82_category_name_refuted, C82_instances_partial, C82_instances_refuted, C83_tried_before, C83_tried_once, C83_what_was_done, C83_default_place, C83_nexus_not_tried_refuted, C83_mpi_with_acc_not_tried_refuted, C83_configured_later_refuted, C83_used_untried_refuted, C83_variable_in_name_refuted, C83_existing_binary_refuted, C83_name_with_dot_refuted, C84_line_above_mark_partial, C84_first_lines_refuted, C84_mark_column, C85_number_is_meant, C85_range_is_meant, C85_step_is_one, C85_colon_means_range, C85_text_with_colon_refuted, C85_text_with_other_characters_kept, C85_other_text_kept, C85_text_kept_refuted, C85_handed_on_unchanged, C86_each_type_once, C86_again_the_same, C86_made_by_name_refuted, C86_made_beside_read_refuted, C86_outcome_repeats_refuted, C87_embedded_text_is_the_text_read, C87_ordinary_file_is_embedded, C87_not_embedded, C87_not_asked_files_unused, C87_main_as_asked, C87_loaded_instrument_refuted, C87_changed_file_refuted, C87_assembled_instrument_refuted, C87_carriage_returns_refuted, C89_equal_iff_same_place, C89_equality_is_consistent, C89_placeholder_refuted, C89_list_not_compared_refuted, C89_versions_differ, C89_library_is_there, C89_twice_is_once, C89_two_versions_refuted, C89_old_libraries_noticed, C89_branch_refuted, C89_ensured, C90_known_and_contain, C90_known_but_not_read_refuted, C90_unique_is_served_remote, C90_unique_is_served_local, C90_unique_in_memory_refuted, C90_unique_in_one, C90_unique_elsewhere_refuted, C90_search_finds, C90_found_is_served, C90_local_search_refuted, C90_local_found_not_served_refuted, C91_copy_shows, C91_copy_of_all, C91_changing_the_copy, C91_changing_the_original_partial, C91_split_leaves_the_original, C91_second_part_on_its_own, C91_translating_another, C91_parts_one_after_the_other_partial, C91_renaming_the_original_refuted, C91_far_back_refuted, C91_jump_of_the_split_component_refuted, C91_split_after_translating_refuted, C92_file, C92_member_refuted, C92_included_refuted, C92_assembled_partial, C92_conditions_refuted, C92_late_refuted, C92_coordinate, C92_coordinate_product_refuted.
* Axioms `sig_forall_dec`, `functional_extensionality_dep` — 2 theorems: C15_particle_in_component_frame_partial, C15_first_component_skipped_refuted.
* Axioms `sig_forall_dec`, `sig_not_dec`, `functional_extensionality_dep` — 36 theorems: C11_from_angles_orthogonal, C11_distances_preserved, C11_from_angles_matches_runtime, C12_single_axis_parts_turn_partial, C12_single_axis_parts_rigid_partial, C12_angles_add_partial, C12_half_turn_not_rigid_refuted, C13_resolve_composes, C13_concatenation_composes, C13_inverse_undoes_partial, C13_reduce_keeps_map_partial, C13_inverse_undoes_refuted, C13_orient_inverse_refuted, C14_placement_agrees_partial, C14_backward_references_are_placed, C14_absolute_rotation_refuted, C14_half_turn_refuted, C14_c_placement_rigid, C15_instrument_partial, C21_first_part_placement, C32_monitors_are_the_union, C32_sums_per_monitor_partial, C32_total_conserved_partial, C32_each_monitor_from_its_inputs_partial, C32_signal_extremes, C32_signal_mean, C32_error_bars_refuted, C32_error_depends_on_order_refuted, C32_width_shrinks_refuted, C32_first_file_duplicates_refuted, C32_ncount_of_repeats_partial, C32_order_does_not_matter_partial, C32_compatible_files_combine, C32_no_events_refuted, C52_expressions_have_values, C52_matrix_of_parameters.
* Axioms `sig_forall_dec`, `sig_not_dec`, `classic`, `functional_extensionality_dep` — 19 theorems: C12_radian_parts_refuted, C12_symbolic_angle_refuted, C21_second_part_placement_partial, C21_quarter_turn_refuted, C52_parameter_about_y, C52_quarter_turn_and_parameter_refuted, C52_two_parameters_refuted, C52_recovered_angles_partial, C52_recovered_angles_of_placement_partial, C52_quarter_turn_refuted, C88_right_handed_axis, C88_below_120_degrees_partial, C88_axis_in_plane, C88_sense_unnoticed_refuted, C88_axis_exists, C88_single_axis, C88_half_turn_refuted, C88_specialization_keeps_map_partial, C88_specialized_half_turn_refuted.

## Not modelled

* The ANTLR parsers themselves: grammar/*.g4 appear as rule structure in Print.v, InstanceText.v, InstrChars.v, Refs.v, CompDef.v, and the lexer rules in Lexer.v; component files are not read from characters. Of c_listener.py the parser of C is not modelled: Declares.v and Visit.v start from its parse tree.
* Floating point arithmetic.
* Display code (McDisplay grammar, mcdisplay translators), `_repr_html_`, command line entry points and argparse, configuration (config/), logging.
* Network, file system, subprocesses: only their results appear, as arbitrary functions.
* MPI, OpenACC, random numbers and the McCode run time library, beyond what is stated above.
* loader/loader.py, utils, test support, cli/management.py.

## Seeded wrong programs

`seeded/LOG.jsonl` records edits of model definitions as a realistic bug would make them, made in a scratch copy, with the theorems that then fail. Where a theorem had survived although its claim was broken it was tightened and the edit repeated. A few edits turned out to be equivalent (same behaviour); these are marked by an empty list of broken statements.

