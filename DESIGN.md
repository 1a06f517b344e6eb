# Formal model of the zserio Python runtime and generated Python code

Everything is under `rocq/theories` (Coq 8.16.1, standard library only).  The
model is shallow: each Python function is a total Gallina function, Python
exceptions are values of a result type, Python `int` is `Z`, `bytes`/`bytearray`
is `list Z` of values 0..255, `str` is `list Z` of code points, `float` is its
IEEE 754 binary64 bit pattern.  A method that mutates its object is a function
`state -> result * state`, so the state an exception leaves behind is visible.

Paths below are relative to `/repo/compiler/extensions/python/`; `rt/` stands
for `runtime/src/zserio/`, `fm/` for `freemarker/`.

## Layers

| file | models / contains |
|---|---|
| `Base.v` | results, exceptions, state monad (Python calls, `raise`) |
| `Spec*.v` | the specification vocabulary: bit lists, documented ranges, value semantics |
| `Model*.v` | the model, function by function, no proofs |
| `*Proofs.v`, `SchemaCodec.v`, `*More.v`, `*Safe.v`, `FloatNarrow.v` | lemmas |
| `Example*.v` | concrete schemas, objects and engines that meet the hypotheses |
| `Prop*.v` | property theorems only, `exact lemma`, `Print Assumptions`, and non-vacuity examples |

Theorem names: `Cnn_…` belongs to property Cnn of `properties.jsonl`.  A name
ending in `_partial` covers part of the claim.  A name ending in `_refuted`
proves, with a concrete witness, that the code violates the claim (or a
variation of it without one of the hypotheses).

## Trusted base

* Coq's kernel (8.16.1; `vm_compute` is used for examples and finite case
  checks, so its bytecode machine as well) and the standard library.  No native
  compilation, no plugins, no flags beyond those of `_CoqProject`.
* Axioms: none.  `Print Assumptions` stands under every theorem of the `Prop*.v`
  files and prints `Closed under the global context` for each of them.  Sections
  use `Context`/`Variable` only inside sections; what a theorem assumes is in its
  statement.  (`coqchk -o` names `Coq.ssr.ssrunder.Under_rel.*`, module-type
  parameters inside the standard library's ssreflect files; no theorem depends on
  them.)
* That the `Model*.v` files say what the code does.  Every definition cites file
  and lines; the simplifications are listed below.
* Behaviour of Python that is written down in the model rather than in /repo:
  integer arithmetic and shifts, slices and indexing of lists and bytes,
  `struct.pack/unpack` of `>f`, `>d` (IEEE 754 rounding to nearest even, exact widening;
  `ModelFloat.v`), the UTF-8 codec (RFC 3629; `ModelUtf8.v`), `json.JSONEncoder` for
  scalars (`ModelJson.v`), list/tuple comparison.
* External functions that are parameters of the model, so that the theorems hold
  for all of them (or all that meet the stated law):
  - schema expressions: arbitrary functions of parameters, preceding fields and index;
  - `ModelJson.py`: `isdigit` and `int` outside ASCII, `float(str)`, `repr(float)` (C46 and C34
    use `float_repr_law`: `float(repr x) = x`, and the shape of the text);
  - `re.match` of `RegexWalkFilter`: any predicate on paths;
  - service and Pub/Sub backends and user callbacks: any computations on a state of their own;
  - the SQL engine: any `run : Db -> statement -> res (rows) * Db`, transactions as described in
    `ModelSql.v`; C49 adds the record `keeps` (rows come back in order of insertion), met by the engine
    in `ExampleSql.v`;
  - observers and filters given by the user: any handlers.

## What is modelled

| code | model | remarks |
|---|---|---|
| `rt/bitwriter.py` | `ModelWriter.v`, `ModelCalls.v` | all public methods; not `to_file` (in `ModelSerialization.v`: bytes unchanged) nor the C++ replacement |
| `rt/bitreader.py` | `ModelReader.v`, `ModelCalls.v` | all public methods; not `from_file`, C++ replacement |
| `rt/bitbuffer.py`, `rt/bitposition.py` | `ModelBitBuffer.v` | |
| `rt/bitsizeof.py`, `rt/limits.py` | `ModelBitsizeof.v` | |
| `rt/builtin.py`, `rt/bitfield.py` | `ModelBuiltin.v` | |
| `rt/float.py` | `ModelFloat.v` | |
| `rt/hashcode.py` | `ModelHash.v`, `ModelEq.v` | |
| `rt/array.py` | `ModelArray.v`, `ModelSchema.v` (object traits) | not plain list access |
| `fm/Structure.py.ftl`, `Choice`, `Union`, `CompoundField.inc`, `CompoundParameter.inc`, `Enumeration`, `Bitmask` | `ModelSchema.v` (read, write, bitsizeof, packing contexts, initialize_offsets), `ModelEq.v` (`__eq__`, `__hash__`), `ModelMask.v` (operators, `from_name`), `ModelAccessors.v` (constructors, getters, setters, indicators), `ModelDefaults.v` (default arguments and the identity of mutable values), `ModelTypeInfo.v` (accessors as reflection uses them) | an interpreter for schemas given as data; the Java classes that fill the templates are modelled in `ModelCompile.v` as far as listed there, otherwise trusted to pass on what the schema says |
| `rt/serialization.py` | `ModelSerialization.v` | |
| `rt/json.py` | `ModelJson.v` (encoder, decoder, tokenizer, parser), `ModelJsonWriter.v`, `ModelJsonReader.v` | |
| `rt/debugstring.py` | `ModelJsonWriter.v`, `ModelJsonReader.v` | string/stream variants; file variants differ by `open` only |
| `rt/typeinfo.py`, `fm/TypeInfo.inc.ftl` | `ModelTypeInfo.v` | attributes used by walker, JSON and creator |
| `rt/walker.py` | `ModelWalker.v` | walker and all filters |
| `rt/creator.py` | `ModelCreator.v` | |
| `rt/service.py`, `rt/pubsub.py`, `fm/Service.py.ftl`, `fm/Pubsub.py.ftl` | `ModelService.v` | |
| `fm/SqlTable.py.ftl`, `fm/SqlDatabase.py.ftl` | `ModelSql.v` | |
| `core …/extension/common/sql/SqlNativeTypeMapper.java`, `types/*.java` (names) | `ModelSqlTypes.v` | what SQLite does to values by column affinity is stated in `SpecSqlTypes.v` from its documentation; literals and traditional names are not modelled |
| `ast/Expression.java` (types), `ExpressionFormatter.java`, `PythonExpressionFormattingPolicy.java` | `ModelExpr.v` | code of expressions as tokens; no floats, string operators, templates; access paths are single names (see `ModelPaths.v`). The grammar and evaluation of Python expressions (`PyExpr.v`) is trusted |
| `PythonSymbolConverter.java`, `AccessorNameFormatter.java`, `ReservedKeywordsClashChecker.java`, `PythonScopeSymbolClashChecker.java`, `PythonGeneratedSymbolsClashChecker.java`, `PythonModuleClashChecker.java`, `PythonPackageWithModuleClashChecker.java`, `PythonApiClashChecker.java`, names of `fm/*.ftl` and `fm/api.py.ftl` | `ModelNames.v` | names only; template API methods are listed instead of found by regular expression; no schema templates, SQL columns |
| `ast/StructureType.java`, `ChoiceType.java`, `UnionType.java`, `CompoundType.java`, `Field.java`, `ArrayInstantiation.java`, `DynamicBitFieldInstantiation.java` (checks), `RuntimeFunctionDataCreator.java`, `PythonNativeMapper.java`, `CompoundFieldTemplateData.java` | `ModelCompile.v` | from resolved declarations to the schema of `ModelSchema.v`; names are numbers, constant expressions are values, subtypes and templates resolved; simplifications at the top of the file |
| `ast/Expression.java:655-695, 1885-1958`, `PythonExpressionFormattingPolicy.java:48-104`, `PythonLiteralFormatter.java` | `ModelLiterals.v` | texts of literals; how Python reads literals (`PyLiteral.v`) is trusted |
| `ast/ExpressionIntegerValue.java`, `ast/Expression.java:655-715, 983-1616`, `ast/DynamicBitFieldInstantiation.java:107-162` | `ModelBounds.v` | compile-time values and bounds of integer expressions; what declarations give for names, fields, lengths, functions is an argument (`leaf`, see `ModelDeclared.v`); `needsBigInteger` (Java only), templates, floats and strings not modelled |
| `ast/Expression.java:983-1065, 1180-1211, 1251-1296, 1612-1830`, `ast/DynamicBitFieldType.java:24-37` | `ModelDeclared.v` | what declarations give for names, fields, elements, lengths and calls; evaluation on demand with a bound on its depth; operators on strings and templates not modelled |
| `extension/common/PackedTypesCollector.java`, `ast/CompoundType.java:152-251, 425-485`, `fm/*.py.ftl` (`usedInPackedArray`) | `ModelCollector.v` | which code for packed arrays is generated and which is called, checks for recursive types; templates of the schema language not modelled |
| `ast/EnumType.java`, `ast/EnumItem.java`, `ast/BitmaskType.java`, `ast/BitmaskValue.java`, `ast/Constant.java`, `ast/ExpressionUtil.java:48-68`, `fm/Enumeration.py.ftl`, `fm/Bitmask.py.ftl`, `rt/enum.py` | `ModelItems.v` | values of items and their checks, members of enum classes, text of bitmasks; warnings of deprecated items and base types that are dynamic bit fields not modelled |
| `ast/ChoiceType.java:181-414`, `ast/ExpressionComparator.java`, `py/ChoiceEmitterTemplateData.java`, `fm/Choice.py.ftl:11-46` | `ModelChoice.v` | checks of selectors and case labels, the statement that selects a branch; texts of expressions are compared as trees, checks of optional references in selectors (warnings) are in `ModelOptional.v` |
| `ast/ZserioAstScopeSetter.java`, `ast/Scope.java`, `ast/Expression.java:560-580, 996-1038, 1618-1660`, `ast/ZserioAstEvaluator.java:131-166` | `ModelScopes.v` | the scopes in which expressions of compound types are resolved, functions evaluated in the scope of the call; template parameters and the additional scopes of enums and bitmasks are left out |
| `ast/Package.java:117-128, 149-263, 323-378`, `ast/Import.java`, `ast/TypeReference.java:127-170`, `ast/Expression.java:1066-1132, 1618-1729`, `ast/PackageSymbolValidator.java` | `ModelPackages.v` | imports, visible symbols, references to types, names and dot expressions up to the resolved symbol; warnings and template arguments are left out |
| `extensions/python/.../PythonTemplateData.java:53-96`, the `*EmitterTemplateData.java`, the module level of `freemarker/*.py.ftl`; import in Python (trusted) | `ModelModules.v` | which modules a module imports and which names it evaluates while it is imported; the resolution of names is C71, names of modules are C62 |
| `ast/TemplatableType.java:72-103`, `ast/TypeReference.java:127-170, 190-235`, `ast/TemplateArgument.java:88-96`, `ast/Expression.java:778-848`, `ast/ZserioAstTemplator.java:72-124` | `ModelTemplates.v` | instantiation of type references and of names in expressions, resolution of the result; a compound type is the list of its type references; which references share a type is `ModelInstances.v` |
| `ast/ZserioAstTemplator.java:72-420`, `ast/TemplateArgument.java:43-62`, `ast/Package.java:265-320, 380-420`, `tools/HashUtil.java` | `ModelInstances.v` | which references share one instantiation, names and hash codes of instantiations, `instantiate` types; references are given in the order in which they are visited, their arguments resolved; separately, which instantiations one reference leads to |
| `ast/CompoundType.java:157-164, 426-488`, `fm/TypeInfo.inc.ftl:1-79`, `fm/Structure.py.ftl:119-168` (and Choice, Union), `CompoundFieldTemplateData.java:361, 560-570` | `ModelRecursion.v` | checks of direct and indirect recursion and the recursion of type_info; types are numbered, of the type info only the compound types are kept |
| `ast/ZserioParseTreeChecker.java:44-74, 149-477`, `ast/Field.java:378-412`, `ast/StructureType.java:163-186`, `common/ExpressionFormatter.java`, `PythonExpressionFormattingPolicy.java:113-130, 288-303, 358-390, 435-488` | `ModelSetter.v` | what is accepted as offset expression and the code of getter and setter with the flags of the formatter; resolved symbols are given, texts are tokens |
| `rt/json.py:47-86, 927-958`, `rt/walker.py` | `ModelJsonStream.v` | one writer for several walks, several calls of JsonReader.read |
| `fm/TypeInfo.inc.ftl:81-158, 223-232`, `fm/Choice.py.ftl:167-200` | `ModelAttributes.v` | attributes of fields and cases in the type information |
| `compiler/extensions/python/freemarker/Structure.py.ftl`, `Choice.py.ftl`, `Union.py.ftl`, `SqlDatabase.py.ftl` (order of members, decorators, local names), `PythonTopLevelPackageClashChecker.java:25-40` | `ModelBodies.v` | execution of the body of a class by Python, names that imports bind, names in methods; bodies of methods are represented by their local names and the names they use |
| `compiler/extensions/python/freemarker/DocComment.inc.ftl:1-123`, `Structure.py.ftl:236-251`, `DocCommentsTemplateData.java` | `ModelDocs.v` | text of doc strings; Python's string literals in three quotes and their escapes (trusted) |
| `compiler/extensions/python/src/zserio/extension/python/ApiEmitter.java:41-191`, `ApiEmitterTemplateData.java:82-99`, `freemarker/api.py.ftl`, `InitPyEmitter.java:27-53` | `ModelApi.v` | mapping of packages to subpackages and symbols, statements of api modules, generated files and packages; Python's import of them (trusted) |
| `compiler/core/src/zserio/ast/ExpressionUtil.java:20-134`, `Constant.java:79-97`, `Field.java:290-302`, `Expression.java:1663-1830`, `freemarker/Constant.py.ftl` | `ModelConstants.v` | checks of constants and initializers, the modules of constants; constants are numbered so that each uses earlier ones; float, string, enum and bitmask constants left out |
| `ast/Field.java:414-589`, `Function.java:112-127`, `ChoiceType.java:416-431`, `Expression.java:402-471, 893-980`, `ExpressionComparator.java` | `ModelOptional.v` | texts are compared as trees, literals by value; the wording and the order of warnings are left out; objects are given by what they answer ([living] in `SpecOptional.v`) |
| `antlr/ZserioParser.g4:347-389`, `ast/ZserioAstBuilder.java:741-1006` | `ModelParser.v` | expressions as ANTLR documents rules with left recursion (trusted); tokens are given; the length of bit fields, where > follows, is left to `ModelGrammar.v` |
| `core/antlr/ZserioLexer.g4` (all rules), `Expression.java:655-695` | `ModelLexer.v` | the lexer: all rules as regular expressions, the longest match and the first rule; ANTLR's strategy is trusted; positions and messages are left out |
| `tools/ZserioTool.java:164-241`, `tools/InputFileManager.java`, `ast/ZserioAstBuilder.java:69-170`, `ast/PackageName.java`, `ast/ZserioAstImporter.java` | `ModelFiles.v` | which files are found and read; contents of files are given (package, imports, symbols), timestamps left out, names of files as in Unix |
| `core/antlr/ZserioParser.g4` (all rules but expressions) | `ModelGrammar.v` | trees of schemas and the words of a tree; that ANTLR finds a tree if there is one is trusted, literals by their values |
| `core/.../tools/ZserioAstBuilder.java` (dots and identifiers), `core/.../ast/Expression.java` (names, dots, calls, elements), `core/.../ExpressionFormatter.java`, `PythonExpressionFormattingPolicy.java`, `AccessorNameFormatter.java`, `PythonFullNameFormatter.java` (access paths) | `ModelPaths.v` | tokens instead of characters; sums and integers stand for all other expressions (`ModelExpr.v`); the attributes of generated classes are in `SpecPaths.v` |
| `core/.../tools/InputFileManager.java` (times), `ResourceManager.java`, `ZserioExtensionParameters.java`, `core/.../common/OutputFileManager.java`, `PythonDefaultEmitter.java`, `PythonExtensionParameters.java`, `TemplateDataContext.java` (header) | `ModelUpdate.v` | which files are written again; parser and generator are functions of what was read (`source_of`, `generate`), times are natural numbers |
| `core/.../ast/Expression.java` (strings), `ExpressionFormatter.java` (strings), `PythonExpressionFormattingPolicy.java` (string literals, `lengthof`) | `ModelStrings.v` | names resolved, conditions given, the Python text as a tree |
| `core/.../tools/WarningsConfig.java` | `ModelWarnings.v` | the options have been split at commas; maps as lists |
| `core/.../ast/RuleIdValidator.java`, `RuleIdUniqueChecker.java`, `SqlIdentifierValidator.java`, `Package.java` and `Root.java` (rules) | `ModelRules.v` | case of ASCII letters |
| `core/.../tools/ZserioVersion.java`, `ExtensionVersionMatcher.java`, `core/.../ast/CompatibilityVersion.java`, `core/.../common/CompatibilityChecker.java` | `ModelVersion.v` | texts without line terminators and foreign digits; of a schema only the versions and fields |
| `ast/SqlTableType.java:132-390`, `SqlTableEmitterTemplateData.java:44-62, 101-160`, `fm/SqlTable.py.ftl:100-150` (names of methods) | `ModelTables.v` | what `SqlConstraint.java` finds in texts is given; wording of messages left out |
| `ast/ZserioAstChecker.java:28-43, 85-215, 298-327, 351-355`, `ast/TypeReference.java:58-65` | `ModelUnused.v` | types by their full names, declarations by the references in them; warnings for missing comments are not modelled |
| `ast/ServiceMethod.java:70-105`, `ServiceType.java:75-83`, `PubsubMessage.java:95-128`, `PubsubType.java:75-83`, `ScopeSymbolValidator.java` | `ModelSendable.v` | of types and topics only what is asked for; case of ASCII letters |
| `ast/SqlConstraint.java:80-160` | `ModelSqlConstraint.v` | the regular expressions as functions; the constraint as a constant string is in `ModelStrings.v` |
| `ast/DocCommentManager.java:51-250` | `ModelComments.v` | ANTLR's token stream as a list; the syntax of classic comments is not modelled |
| `ast/DocCommentAstBuilder.java:31-171` | `ModelParagraphs.v` | the elements that the grammar finds are given |
| `ast/DocCommentAstBuilder.java:157-166`, `antlr/util/TokenParseErrorListener.java:24-38`, `ast/AstLocation.java:17-41` | `ModelLocation.v` | how ANTLR counts lines and columns is trusted |
| `ast/SymbolReference.java:66-185` | `ModelSee.v` | scopes of types as a given function; templates are named by the template |
| (composition) | `SpecRead.v`, `SpecReadTree.v` | no new model: the shape of objects that `read` returns, related to the models of walker and JSON |

Not modelled: the rest of the schema compiler (the syntax of comments with documentation and what the rows above leave out) and of the Java emitters,
the text of generated functions (their values are in `ModelCompile.v`), constants of float, string, enum and bitmask types,
`rt/cppbind.py` and the C++ runtime, exception texts, file system access,
threads, memory limits, the Python recursion limit (only as the `depth` of the
walker).

## Simplifications

Each `Model*.v` file lists its own in its header.  In short:

* Objects are values.  There is no aliasing between objects; a parameter that is a
  compound is compared structurally where the code uses `is not`
  (`fm/CompoundField.inc.ftl:362`), and an offset cannot be set through a parameter
  into another object.
* Float parameters are compared by bit pattern.
* Values of Python types that the annotations do not allow raise `TypeErr` or
  `AttributeErr` at once, also where Python would notice later or not at all.
* An array of dynamic bit fields evaluates its element size when used.
* Packing contexts are addressed by path instead of by object.
* The tokenizer keeps the unread part of its content only; its positions are relative to it.
* The text of exceptions (also line and column in JSON messages) is left out; `int()`'s 4300 digit
  limit is not modelled; files are text without encoding or newline translation.
* JSON: a bitmask read from a JSON float raises in the model (Python stores the float); `true` is the
  integer 1.
* SQL rows are lists; `read` gives all rows at once.

Schemas covered by the round trip theorems (`wf_schema` in `SpecSchema.v`): expressions depend on
nothing that reading changes, extended fields only in the outermost type (the compiler demands it, `StructureType.java:102-133`), an
implicit array only at the very end of the object, also as the end of the types nested in last place (`end_type`); the
length of a bit field in an array does not depend on the index (the compiler demands it,
`ZserioParseTreeChecker.java:174-198, 470-480`).  The safety theorems (C29, C31, C33) hold for every schema.

Schemas covered by the offset theorems (`offsets_schema` in `SpecOffsets.v`): offset fields are unsigned bit fields of structures,
not packed, and no expression but offset expressions looks at them; an offset expression names one of them, directly, in a nested object or
as an element of an array (`ExampleOffsets.v` proves this for the three forms).  An argument that is an object with offsets is not covered.

The wire format (`SpecWire.v`) is written from the Encoding Guide: an object is a list of tokens (built-in values, alignments, offsets,
integers to be packed), packing replaces the integers of each column, and `layout` gives the bits at a position.  It shares with the model
the data types, the expressions of the schema, `value_eqb` and paths of packed integers; C53 holds for every schema. C54 is the converse: with the checks of SpecChecks.v, `encoding` decides what write accepts.

## Findings

Places where the code does not do what its API suggests, each with a theorem `…_refuted` or
visible in the model:

* `BitStreamReader` accepts a negative `bitsize`, so that its position starts behind the end (C06).
* Hash codes of `0.0` and `-0.0` differ although the values are equal (C15, C32).
* `float16` narrowing: overflow gives NaN, `-0.0` or an exception; tiny values are not rounded to nearest (C17).
* Packed arrays: elements read can be outside the range of the element type (C26), only the first
  element written is checked (C44), a few bytes can claim any number of elements (C45), a bitmask
  read from a packed array can be out of bounds (C31).
* A negative array length is read as an empty array and an enum item that has been removed is read; writing such an object raises (C55).
* A present extended field without any bits is lost (C27).
* An array of dynamic bit fields with negative length and negative width is read as empty, or refused when few bits follow it (C61).
* Comparing an object with an empty choice case raises (C32), stale unused optional fields make equal objects differ (C32).
* JSON strings: `\/` is refused, surrogate pairs are not combined (C34); a value at the very end of the text may be reported as end of file, depending on how the text is cut into blocks (C35);
  reading raises other exceptions than documented (C48).
* Walking a new choice whose member is an array raises `AttributeError` (C38).
* `RegexWalkFilter` does not enter objects in arrays whose own path is the only match (C47).
* Tree creator and JSON reader mark all extended fields present (C41, C46).
* Services and Pub/Sub do not initialise offsets (C42); nor do blob columns of SQL tables.
* `initialize_offsets` makes an absent optional offset field present (visible in `ModelSchema.v`, excluded in C52 by `sound` and `same_but_offsets`).
* `SqlTable.write` leaves its transaction open after an exception (C43); rows of column subsets have different
  shapes in tables with and without conversions (C49); a virtual last column leaves a dangling comma (C50).
* By the documented conversions of SQLite, NaN in a float column is read back as None, minus zero as zero, and values of
  uint64 fields from 2^63 on are refused (C49_values_refuted).
* Documentation: the nested packed array example of the Encoding Guide states values 10 to 50, its bytes are those of 0 to 40 (`ExampleWire.v`).
* The default of a bytes field is `bytearray()` as a default argument, which Python evaluates once: all objects
  constructed without this argument share one bytearray, and appending to it changes the default itself (C58).
* All fields of a choice share one attribute: the getter of a field that is not selected returns the value
  that was set for another field instead of raising (C57_choice_setter).
* Expressions (C59): `a < b == c` and `a == b == c` become comparison chains in Python; `a == !b` becomes `a == not b`, a syntax
  error; `valueof(c ? A : B)` of an enum becomes `(A) if (c) else (B).value`; `/` and `%` round downwards instead of towards zero; a negative index
  counts from the end. The type checker accepts `==` between different enums (always false in Python) and `<` between enums (raises).
* Names (C62): the checks of the Python extension overlook resetters (optional field `a` and field `resetA`), offset methods (indexed array `a_` and field
  `offset_checker_a`), names that become keywords by the conversion (field `Class`, type `Class` or `Pass`, whose module cannot be imported), and enum items `_A_`, which Python's `Enum` refuses.
* The compiler (C64) accepts `align(0)` although its message asks for a positive integer; every write of such a type raises `ZeroDivisionError`. Its check of implicit
  arrays begins only behind an implicit array that is unconditional, so a conditional one, or one in a choice, may be followed by other fields; what is written cannot be read.
* Literals (C65): string literals are copied into Python code, where `\0coo` is read as `\0co` followed by the character `o`; characters outside of 16 bits written as two `\u` escapes give a string that cannot be encoded.
* Bounds (C66): the compiler negates bounds without exchanging them, takes `a << b` and `a >> b` to be monotone in both operands, takes `numbits(0)` for 1 (0 in generated code) and `valueof(~M.A)` for a negative number, reduces lengths of dynamic bit fields modulo 2^32 before checking them, and fails with an ArithmeticException for a constant division by zero even in a branch that is not taken.
* Packed arrays of the own type (C67): for `struct Leaf { uint8 x; }; struct Tree { Leaf leaf; packed Tree children[]; };` the class `Leaf` gets no methods for packed arrays, because the collector does not enter the type it comes from; reading or writing a `Tree` with children raises AttributeError.
* Values of items (C68): `bitmask uint8 M { NONE = 0, A }` gives `A` the value 2 although 1 is unused; `enum uint8 E { A = true ? 1 : 2 }` makes the compiler fail with a NullPointerException, because the value of a conditional expression is not calculated; for the same reason `const uint8 C = true ? 300 : 2` is accepted; `const int8 C = -257 / 2` is checked as -128 and is -129 in generated code; `const int8 C = 1 << -1` is accepted and the generated module cannot be imported.
* Choices (C69): `choice C(bool p) on p { case true: case false: uint8 a; }` is accepted and the generated statement starts with `else:`, so the module cannot be imported; `case true: ... case !false: ...` is accepted and `false` takes the second branch; `case ~LOW:` and `case HIGH:` (values 0x0F and 0xF0 of a `uint8` bitmask), or `case true ? 1 : 2:` and `case 1:`, are accepted though equal; `case f():` is accepted where `f` returns a parameter although labels have to be constant; a constant of another enumeration is accepted as label; `case -7 / 2:` catches -4, not -3.
* Scopes (C70): with `const uint8 X = 1;` and a structure with `uint8 a : f() == 1; uint8 X; uint8 b : f() > 0; function uint8 f() { return X; }` the result of `f` is checked with the constant for the first call and with the field for the second; the generated `f` reads the field, so the constraint of `a` raises AttributeError on reading. If only the first call exists, the generated `f` returns the constant although `X` is the field in its own scope. A function called on another object of the same type is checked in the scope of the call as if it were called on the object being read, so schemas are rejected whose expressions are determined.
* Packages (C71): `import a.X;` in a package with its own `X` makes `X` ambiguous (documented: the local symbol); `import a.X; import a.*; import b.*;` makes `X` ambiguous (documented: the single import has precedence) and `import a.X; import a.*; import b.X;` silently takes `b.X` (documented: an error), because an import of a whole package removes the single imports of that package; a package that imports its own symbol can use it neither with nor without package; in an expression a field named like the first part of a package name hides the package; `f.LIMIT` with a function `f` is accepted and taken for the constant `LIMIT`, with the text of `f` put before it in the generated code.
* Modules (C72): `struct Node { uint8 hasChild; NodeAlias child if hasChild != 0; }; subtype Node NodeAlias;` is accepted, but `import p.node` raises AttributeError: the module of the subtype evaluates `p.node.Node` while `p.node` is being imported. It works if `p.node_alias` is imported first. This happens exactly for types used by their own definition under the name of a subtype.
* Templates (C73): in `struct Holder<E> { E e; function uint8 f() { return valueof(E.RED); } };` the text of the argument is put in place of `E` and looked up in the package of the template. With `enum uint8 Color { RED = 2 };` in package `user` and `Holder<Color>` there, `E.RED` is rejected if package `library` of the template does not see `user.Color`, and silently an item of `library.Color` if there is one, while the field `e` has type `user.Color`. A field named like the argument hides it. A template parameter `T` is rejected as ambiguous if two imported packages have a type `T`.
* Instantiations of templates (C74). `Outer<S>` with `subtype Inner<uint8> S` and `Outer<Inner<uint8>>` become two classes, as the name of an instantiation leaves out the arguments of what a subtype stands for; for the same reason `Outer<S1>` and `Outer<S2>` with subtypes of `Inner<uint8>` and `Inner<uint16>` are rejected as a name clash. The instantiation found under a name is compared by its arguments but not by its template: two templates with names of more than 64 characters and equal hash codes silently share one class; so do `Outer<lib1.Inner<uint8>>` and `Outer<lib2.Inner<uint8>>` if both arguments have an `instantiate` in the same package. `instantiate Outer<Inner<uint8>> OI; instantiate Inner<uint8> I;` (in this order, in another package than `Inner`) loses `OI`: the map of `instantiate` types is keyed by arguments whose hash code changes after they have been put there. A name with a hash code can be that of another instantiation. `struct T<X> { T<T<X>> f; }` makes the compiler run until its stack overflows.
* Recursion (C75). `struct Tree { Tree children[]; function Tree first() { return children[0]; } };` is accepted, but `Tree.type_info()` recurses until Python raises RecursionError, as only optional fields and arrays of the type itself are made lazy, not the types of functions and parameters; with it walkers, JSON and the tree creator cannot be used for the type. The same with `struct Node { Node next[]; Check(next[0]) check if lengthof(next) > 0; }; struct Check(Node node) { … };`. The check for indirect recursion itself overflows the stack instead of reporting an error for `struct User { A a; }; struct A { B b[]; }; struct B { A a[]; };` (checked in this order): it follows the recursion between `A` and `B` looking for `User`.
* Offset expressions (C76). `inner.limit: uint8 x;`, where `limit` is a parameter of the type of `inner`, and `pkg.CONST: uint8 x;` are accepted, because parameters and constants are looked for only in expressions without a dot; the code that should set the offset is then the statement `self.inner.limit` (`pkg.const.CONST`) without effect, so initialize_offsets does nothing and write raises unless the position happens to be right. Two fields may use `a.end` and `b.end` where `a` and `b` are the same object; then no object can be written in general.
* Objects that have been read (C77). A packed array of bitmasks can deliver values out of the range of the bitmask; such an object is written as JSON, but the JSON reader rejects the text. A choice whose selected case has no field is read with no choice attribute set, but comes back from JSON with `None`, and comparing the two raises AttributeError.
* JsonReader.read looks at the first token behind the object it returns (C78): if this is not a token, the read of the complete object before it raises, and on an interactive stream it waits for more input.
* References in documentation (C101): a package that imports a symbol of its own makes the full name of that symbol ambiguous in @see as well.
* Markdown comments (C100): lines are split at line feeds only, so in a file with CR LF line ends an empty line counts as a line without indentation, and an indented comment with an empty line keeps its indentation and is code in markdown.
* SQL constraints (C99): only the first UNIQUE (...) of a table is looked at, so unknown columns in a second one get past the check; `PRIMARY KEY(a DESC)`, which is valid SQL, is refused as the column is taken to be named `a DESC`; words inside quotes, as in `CHECK(s != 'NOT NULL')`, count.
* Pub/Sub (C98): that a topic is a constant string is checked only for messages of compound types. `topic(5) bytes raw;` is accepted, and the generated code publishes with the topic 5.
* Unused types (C97): an enum or bitmask that only expressions name (`const uint8 C = valueof(Color.RED);`), and a type that only a template without instances refers to, are reported as not used, though the schema does not compile without them.
* Explicit parameters (C96): if a parameter is declared by an enum and another by a subtype of that enum, and both are given by one explicit name, IParameterProvider has two methods of that name with different annotations. The set of methods compares names of types without resolving subtypes, the check of the compiler resolves them.
* Compatibility (C95): only the version that the root package requires is checked. If an imported package requires 2.4.2 and has packed arrays, whose encoding changed in 2.5.0, code is generated with a warning only; the language overview promises an error.
* Rules (C94): the language overview says that identifiers of rules must be unique globally; without -withGlobalRuleIdCheck two packages can have the same. It also says that they are identifiers extended by some characters, but one that starts with an underscore is refused.
* Length of strings (C92): the compiler keeps the text of a string literal with its escapes, so `lengthof("\n")` is 2 in values of enumerations and bitmasks, numbers of bits and bounds, but 1 in the generated Python code (`zserio.builtin.lengthof_string("\n")`).
* Skipped files (C91): when two schemas that share packages are generated into one directory, the second run skips the shared files of the first. These depend on the whole schema: `api.py` lists the packages of the first schema only, and a shared type that only the second schema uses in packed arrays has no packing methods, which the code of the second schema calls. A file that a failed run has written in part is skipped by the next run, as it has the right header and is new. A schema file changed while the compiler runs is older than the output, so the change is never generated without -ignoreTimestamps.
* Paths (C90): a dot after something without a type of the schema is taken as one after an empty package name. `(1 + 2).MAX` and `(pkg).MAX` are accepted and emitted as `(1 + 2)pkg.max.MAX` and `()pkg.max.MAX`, which is no Python; `f.MAX` with a function `f` is emitted as `self.fpkg.max.MAX`.
* Grammar (C89): `N<n> x;` with a subtype `N` of `bit` can be read as a bit field of length `n` or as a template with argument `n`; the grammar prefers the template, so it is rejected, while `N<n + 0>` and `N<(n)>` are lengths. `T<U> z : a < e && c > d;` is a field with a constraint or a field `d` with an offset; it is read as the latter without a message about the choice.
* Files (C88): the user guide allows an absolute name of the input file; it is never accepted unless there is a source path or a top level package, because the name of the package does not match the name of the file (or because the default package "cannot be compiled with path").
* Lexer (C87): `/**/` does not end a comment: the rule for documentation comments (`'/**' .*? '*/'`, ZserioLexer.g4:113) matches from `/**/` to the next `*/` and wins as the longer match, so declarations between `/**/` and the end of the next comment are dropped without a message; doc/ZserioLanguageOverview.md:1250-1251 says that a comment ends with the next `*/`.
- C86: the check that there is no space in `>>` compares positions in lines only, so two `>` in different lines are taken for the operator if the second is one position further to the right.
- C85: the compiler keeps one entry for each optional field an expression mentions, so `if y > 1 && hasY && y > 2` and `uint8 f if c.hasY : e.y + c.y < 9` give no warning though `y` and `e.y` may be absent. Conditions of && inside of other operators count for what follows: `if (b || (hasY && b)) && y > 1` and `if !(hasY && b) && y > 1` give no warning. In types that contain themselves, `uint8 y if hasY : a[0].y > 0` and `if hasNext && hasY && next.y > 0` give no warning though the condition is about another object. Expressions with the ternary operator are not checked, by design.
- C84: the compiler checks the range of a constant or initializer only if it knows the value, and it never knows that of a conditional: `const uint8 X = true ? 300 : 1;` is accepted, and a field with it cannot be written. `const uint8 X = -7 / 2 + 3;` and `const bit:1 X = numbits(0) - 1;` are 0 for the compiler and -1 in Python. `const uint8 X = 1 << -1;` is accepted but the generated module raises ValueError when imported. The initializer of `bit<x> f = 200;` is checked for the maximum length of `x` only.
* Texts of documentation comments are put into doc strings as they are (`-withCodeComments`). A comment with three quotes in a row ends its doc string, and the rest of the comment becomes code of the module: `/** Say """; import os; s = """ */` runs the import. A comment with a path such as `C:\users` makes the module an error of syntax because `\u` starts an escape (C82).
* A field, parameter (or, in choices and unions, function) named `property` is accepted, but rebinds the decorator in the body of the generated class: the module raises TypeError when it is imported unless the field is the last one. A table named `staticmethod` does the same to a database. Of libraries only `typing` is refused as the name of a top-level package although databases import `apsw`, too; packages named `property`, `len`, `object`, … or like local variables in generated methods (`self`, `value`, `length`, …) are accepted and change what generated code means (C81).
* The schema evolution guide allows a new case in a choice with an empty default. Old applications write nothing for the new selector value; new ones then raise or take the next field's bytes for the new case. The same happens with a choice without default none of whose cases has a field, because its class does not look at the selector (C80).
* An array with a negative length expression is read as an empty array, so ARRAY_LENGTH of the type information is not its length, and write raises (C79).
## Properties and theorems

`Print Assumptions` of every theorem listed: closed under the global context.

* **C01** Unsigned bit fields round-trip at every position (proved): `C01_unsigned_bits_roundtrip`.
* **C02** Signed bit fields round-trip at every position (proved): `C02_signed_bits_roundtrip`.
* **C03** The writer's output is exactly the concatenation of successful writes (proved): `C03_writer_history`, `C03_writer_step`.
* **C04** Out-of-range values are rejected, in-range values are accepted (proved): `C04_range_checks`.
* **C05** The reader never delivers bits beyond the stream (proved): `C05_read_bits_exact`.
* **C06** Every sequence of reads stays within the stream (proved): `C06_read_history_safe`, `C06_setter_exact`, `C06_negative_bitsize_refuted`. A negative bitsize, which the constructor accepts, is excluded by hypothesis; C06_negative_bitsize_refuted shows why.
* **C07** Variable-length integers round-trip (proved): `C07_varint_roundtrip`.
* **C08** bitsizeof of a variable-length integer is its exact, minimal encoded length (proved): `C08_varint_size_exact_minimal`.
* **C09** Out-of-range variable-length integers are rejected without effect (proved): `C09_varint_out_of_range`.
* **C10** Decoding variable-length integers is range-safe on any input (proved): `C10_varint_decode_safe`.
* **C100** Documentation comments belong to what they stand before (partial): `C100_attached`, `C100_one_owner`, `C100_field`, `C100_unused`, `C100_sticky`, `C100_indented_partial`, `C100_verbatim`, `C100_terminator`, `C100_crlf_refuted`, `C100_location`, `C100_location_only`, `C100_paragraphs`, `C100_paragraphs_only`. Missing because false: indented markdown comments with carriage returns (C100_crlf_refuted). Lines of indented comments have no other line terminators of Java either.
* **C101** References in documentation find what they name (partial): `C101_sound`, `C101_own`, `C101_qualified_partial`, `C101_unqualified_partial`, `C101_package`, `C101_own_import_refuted`. Uses the model of packages and imports of C71. Missing because false: a package that imports its own symbol (C101_own_import_refuted) and the overlapping imports of C71.
* **C11** Byte strings, strings and bit buffers round-trip at any alignment (proved): `C11_bytes_roundtrip`, `C11_string_roundtrip`, `C11_bitbuffer_roundtrip`.
* **C12** bitsizeof of bytes, strings and bit buffers is exact (proved): `C12_bitsizeof_bytes`, `C12_bitsizeof_string`, `C12_bitsizeof_bitbuffer`.
* **C13** The three alignment functions agree (proved): `C13_alignto_least_multiple`, `C13_writer_alignto`, `C13_reader_alignto`, `C13_bits_to_bytes`, `C13_bytesize_least`.
* **C14** BitBuffer equality is equality of the used bits and is compatible with hashing (proved): `C14_bitbuffer_equality`, `C14_bitbuffer_hash`.
* **C15** Hash codes are 32-bit and compatible with equality (proved): `C15_hash_range`, `C15_hash_polynomial`, `C15_hash_int64_words`, `C15_float_zero_hash_refuted`, `C15_float_hash`. Holds for integers, bytes, strings, bit buffers and arrays of them; for floats the only exception is 0.0 == -0.0, shown by C15_float_zero_hash_refuted.
* **C16** float16 values round-trip exactly (proved): `C16_float16_roundtrip`, `C16_float16_conversions_inverse`.
* **C17** float16 narrowing is accurate and overflow becomes infinity (partial): `C17_float16_nearest_partial`, `C17_overflow_to_nan_refuted`, `C17_overflow_to_zero_refuted`, `C17_overflow_raises_refuted`, `C17_not_nearest_refuted`. Proved for floats exact in single precision with magnitude in [2^-24, 2^16); the code violates the rest of the claim, shown by the C17_*_refuted theorems (overflow gives NaN, -0.0 or an exception; tiny values and double rounding are not nearest).
* **C18** float32 and float64 round-trip exactly (proved): `C18_float64_roundtrip`, `C18_float32_roundtrip`.
* **C19** numbits is the minimal sufficient width (proved): `C19_numbits_least`, `C19_numbits_stores`, `C19_bitfield_bounds`, `C19_signed_bitfield_bounds`, `C19_limits_exact`, `C19_isset`, `C19_lengthof_string`.
* **C20** Arrays round-trip for every element kind and length mode (proved): `C20_array_roundtrip`, `C20_array_accepts`, `C20_implicit_roundtrip`. Element kinds of the runtime (integers, floats, bool, bytes, string, bit buffer); object elements belong to C27.
* **C21** Array.bitsizeof predicts exactly what write appends (proved): `C21_array_bitsizeof_exact`, `C21_array_initialize_exact`.
* **C22** Initialised offsets always pass their checks (proved): `C22_offsets_point_to_elements`, `C22_offsets_unique`.
* **C23** Packed arrays are lossless (proved): `C23_packed_roundtrip`, `C23_packed_accepts`.
* **C24** Packed array size prediction is exact (proved): `C24_packed_bitsizeof_exact`, `C24_packed_initialize_exact`, `C24_packed_offsets_pass`.
* **C25** Packing never costs more than the descriptor (proved): `C25_packed_cost`.
* **C26** Packed reading is safe on any input (partial): `C26_packed_read_safe_partial`, `C26_packed_read_range_refuted`. Safety and element count proved; the range part is false of the code, shown by C26_packed_read_range_refuted.
* **C27** Generated objects round-trip through serialization for every schema (proved): `C27_object_roundtrip`, `C27_root_roundtrip`, `C27_serialize_roundtrip`, `C27_serialize_bytes_roundtrip`, `C27_empty_extended_refuted`. All hypotheses are in SpecSchema.v: wf_schema (expressions do not see what reading changes; extended fields only in the outermost type, as the compiler demands; an implicit array at the very end, at any depth of nesting in last place), sound (annotated types, unused fields None), ext_visible (last present extended field not empty; C27_empty_extended_refuted shows it is needed). Elements of implicit arrays have at least 8 bits, or they could not be told from the padding of the last byte.
* **C28** Generated bitsizeof is exact for every schema (proved): `C28_object_bitsizeof_exact`, `C28_initialize_offsets`, `C28_initialize_offsets_without_offsets`, `C28_bitsizeof_ignores_offsets`. bitsizeof is exact for every schema of C27 and does not depend on offsets; for an object that write accepts, initialize_offsets returns the end and leaves the object alone, also in schemas with offsets.
* **C29** Generated writers enforce constraints, ranges and array lengths (proved): `C29_write_checks`, `C29_read_checks`.
* **C30** Extended fields are backward and forward compatible (proved): `C30_newer_reads_older`, `C30_older_reads_newer`. Both versions of the type live in one schema and share the types they refer to.
* **C31** Enumerations and bitmasks only carry valid values (proved): `C31_mask_operators`, `C31_mask_from_value`, `C31_mask_read`, `C31_enum_read`, `C31_enum_read_exact`, `C31_enum_write_removed`, `C31_enum_from_name`, `C31_packed_mask_refuted`. A bitmask read inside a packed array is not range checked and can be out of bounds: shown by C31_packed_mask_refuted.
* **C32** Generated equality is compatible with generated hashing (proved): `C32_equal_hash`, `C32_hash_range`, `C32_symmetric`, `C32_transitive`, `C32_deserialized_equal`, `C32_stale_optional_refuted`, `C32_float_zero_refuted`, `C32_empty_case_refuted`. Each condition is needed: C32_stale_optional_refuted (clause looks at an unused field), C32_float_zero_refuted, C32_empty_case_refuted (comparing an object read with an empty choice case raises AttributeError).
* **C33** Reading generated objects from hostile input is safe (proved): `C33_from_reader_safe`. The set X of exceptions that user expressions of the schema may raise is a parameter of the theorem.
* **C34** JSON strings survive encoding and decoding (proved): `C34_string_roundtrip`, `C34_string_valid`, `C34_string_accepted`, `C34_value_roundtrip`, `C34_solidus_refuted`, `C34_surrogate_pair_refuted`.
* **C35** JSON parsing does not depend on buffer boundaries (proved): `C35_chunks_agree`, `C35_tokens`, `C35_tokens_whole`, `C35_last_value_refuted`.
* **C36** The JSON writer's output parses back to the same event sequence (proved): `C36_layout`, `C36_json`, `C36_parsed`, `C36_unique`, `C36_default`.
* **C37** Bitmask and enum JSON strings are read back to the same value (proved): `C37_enum`, `C37_mask`. Names of items are identifiers and distinct; bitmask values in range and not negative.
* **C38** The walker reports a well-bracketed pre-order traversal (proved): `C38_walk`, `C38_tree_unique`, `C38_unset_array_refuted`. C38_unset_array_refuted: walking a new choice whose selected member is an array raises AttributeError.
* **C39** Walk filters only restrict the traversal (proved): `C39_any_filter`, `C39_depth`, `C39_array_length`.
* **C40** AndWalkFilter is the conjunction and keeps all filters informed (proved): `C40_conjunction`.
* **C41** ZserioTreeCreator rejects every ill-formed call sequence and builds what it is told (partial): `C41_accepted`, `C41_only_trees`, `C41_prefix`, `C41_refused`, `C41_rebuild_partial`, `C41_extended_refuted`. The grammar is proved both ways in full. Rebuilding an object from a walk (C41_rebuild_partial) needs all extended fields present; C41_extended_refuted shows that it fails otherwise. begin calls may also raise what the constructor or an argument expression raises.
* **C42** Service and Pub/Sub calls are transparent (partial): `C42_service_call_partial`, `C42_unknown_method`, `C42_byte_array_stays`, `C42_publish_partial`, `C42_offsets_refuted`. Proved for objects that can be written as they are. Missing because false: the service and Pub/Sub classes do not set offsets, so an object that serialize writes may be refused (C42_offsets_refuted).
* **C43** SQL table writes are all-or-nothing (partial): `C43_write_partial`, `C43_write_in_transaction`, `C43_unknown_column`, `C43_create_schema`, `C43_delete_schema`, `C43_autocommit_refuted`. All or nothing is proved for the committed database, for every engine that runs statements in transactions. Missing because false: after a failing row the connection stays in a transaction, the rows before it are seen by reads, and later writes are not committed (C43_autocommit_refuted).
* **C44** Packed writing refuses values outside the element type (partial): `C44_packed_write_first_checked_partial`, `C44_packed_write_range_refuted`. Only the first element is checked; the full claim is false of the code, shown by C44_packed_write_range_refuted.
* **C45** The size of a packed array is bounded by its encoding (partial): `C45_plain_read_bounded_partial`, `C45_packed_amplification_refuted`. Proved for plain arrays; false of packed arrays, shown by C45_packed_amplification_refuted.
* **C46** JSON text of an object is read back to an equal object (partial): `C46_round_trip_partial`, `C46_extended_refuted`. For objects all of whose extended fields are present (C46_extended_refuted: otherwise they appear), whose nested parameters are those of the schema, whose names are distinct. float_repr_law is assumed of Python's repr and float.
* **C47** RegexWalkFilter reports exactly the matching paths and what leads to them (partial): `C47_regex`, `C47_regex_within_partial`, `C47_element_refuted`. C47_regex is exact for the code. The claim as documented holds for patterns that do not match only the path of an object in an array (C47_regex_within_partial); otherwise it is false (C47_element_refuted).
* **C48** Reading any JSON text gives a well-typed object or an exception (proved): `C48_object`, `C48_raises`, `C48_documented_refuted`. C48_documented_refuted: not only PythonRuntimeException as documented.
* **C49** Rows written to an SQL table are read back (partial): `C49_rows_read_back_partial`, `C49_plain_rows_read_back_partial`, `C49_update`, `C49_columns_refuted`, `C49_types_partial`, `C49_typed`, `C49_values_refuted`. Proved for engines that keep rows in the order of insertion (record keeps, met by the engine of ExampleSql), separately for tables with and without blobs, enums and bitmasks. Missing because false: the same shape of rows for both kinds of tables (C49_columns_refuted). C49_types_partial: the column types chosen leave the values handed over unchanged under SQLite's affinity rules (as documented, SpecSqlTypes); missing because false: NaN, minus zero, integers of 64 bits (C49_values_refuted).
* **C50** The statement creating a table is well formed (partial): `C50_create_query_partial`, `C50_virtual_column_refuted`, `C50_ordinary`. Proved when the last column is not virtual. Missing because false: a virtual column after an ordinary one leaves a comma before the closing parenthesis (C50_virtual_column_refuted). C50_ordinary: no condition is needed for ordinary tables accepted by the compiler (C96).
* **C51** Relocated tables live in the database they are relocated to (proved): `C51_from_file`, `C51_close`.
* **C52** Offsets are computed, not supplied (proved): `C52_initialize_then_write`, `C52_serialize_sets_offsets`. For schemas whose other expressions do not look at offset fields; offset fields are unsigned bit fields of 1 to 64 bits, and the values the caller left in them fit. Arguments that are themselves objects with offsets are outside (blind requires equal arguments).
* **C53** The wire format is that of the Encoding Guide (proved): `C53_write_stores_encoding`, `C53_serialize_to_bytes`, `C53_serialize`. Holds for every schema (no wf_schema), with alignments that are not negative, and objects whose bytes are bytes and floats are bit patterns. The specification (SpecWire.v) gives the bytes of all worked examples of the guide.
* **C54** write accepts exactly the valid objects (proved): `C54_write_accepts_exactly`, `C54_write_accepts`. checked_object (SpecChecks.v) and encoding (SpecWire.v) are the specification; the theorem is an equivalence, and an accepted object is stored as its encoding.
* **C55** What has been read can be written again and reads the same (proved): `C55_read_can_be_written`, `C55_read_write_read`, `C55_bytes_read_write_read`. The three exceptions are witnessed by C55_exceptions_refuted: bytes that are read but not accepted by write (negative array length, removed enum item, packed array with an element out of range).
* **C56** Offsets give random access (proved): `C56_field_at_offset`, `C56_element_at_offset`, `C56_object_at_offset`, `C56_serialized_object_at_offset`. Hypotheses as in C27 plus values_ok (bytes are bytes). Parts inside packed arrays are excluded: their encoding depends on the elements before them. Implicit arrays, and types that end with one, are excluded, as they extend to the end of the stream (free_field, refers_plain, plain_type).
* **C57** Constructors, getters, setters and indicators agree with each other (proved): `C57_constructor`, `C57_setters`, `C57_indicators`, `C57_condition`, `C57_read_used`, `C57_determined`, `C57_read_objects`, `C57_setters_like_constructor`, `C57_union_constructor`, `C57_union_setter`, `C57_choice_constructor`, `C57_choice_setter`. Objects are those with all attributes (object_of), shown to include what the constructor and from_reader return. Members are given by number. C57_choice_setter also states that all fields of a choice share one attribute. C57_read_used is about fields that are not extended.
* **C58** Objects of a class are independent of each other (partial): `C58_objects_independent_partial`, `C58_default_bytes_shared`, `C58_constructor`, `C58_objects_independent_refuted`. False of the code for bytes fields left to their default: bytearray() is a default argument, evaluated once, so all such objects share it (C58_default_bytes_shared, C58_objects_independent_refuted). Proved for all other fields and arguments. C58_constructor says what a new object shows.
* **C59** Code emitted for expressions is valid Python and has the value the language defines (partial): `C59_emitted_code_valid_partial`, `C59_expressions_partial`, `C59_comparison_chain_refuted`, `C59_negation_refuted`, `C59_valueof_refuted`, `C59_division_refuted`, `C59_modulo_refuted`, `C59_index_refuted`. False of the code for an equality whose operand is a comparison (Python chains comparisons), a negation to the right of an equality (a syntax error), valueof of an unparenthesised conditional enum, divisions and remainders with operands of different sign, and negative indices (each refuted). Proved for all other expressions; relational operators on integers only, equality on operands of the same type.
* **C60** Any stream holding an object's encoding is decoded to that object, and encodings are uniquely decodable (proved): `C60_decode`, `C60_decode_end`, `C60_deserialize`, `C60_deserialize_bytes`, `C60_prefix_free`, `C60_same_bytes`. Combines the round trip (C27) with the converse of the wire format (C54): decoding is a matter of the bits alone. Conditions as in C27 and C54; plain_type excludes types that end with extended fields or an implicit array, which the *_end, deserialize and same_bytes theorems cover.
* **C61** Reading an object depends only on the bits it consumes, and a stream cut short is refused (proved): `C61_continuation`, `C61_truncated`, `C61_local`, `C61_truncated_buffer`, `C61_truncated_bytes`, `C61_local_refuted`. Exact locality needs that an array of dynamic bit fields has no negative length together with a negative width (array_widths_ok): Array.read multiplies the two for its early check of the stream end, C61_local_refuted. Continuation and truncation hold without the condition. Types with extended fields or implicit arrays depend on the stream end by design.
* **C62** Names of generated Python code follow the schema names and do not clash (partial): `C62_conversion`, `C62_members_partial`, `C62_arguments`, `C62_keywords_partial`, `C62_items`, `C62_services`, `C62_packages`, `C62_resetter_refuted`, `C62_offset_refuted`, `C62_keywords_refuted`, `C62_items_refuted`, `C62_words`, `C62_generated_names`. False of the code in four places (C62_resetter_refuted, C62_offset_refuted, C62_keywords_refuted, C62_items_refuted); the partial theorems hold for scopes that avoid resetter and offset method names, and names that are keywords in another case. Arguments, services, Pub/Sub, bitmasks and packages hold without exception. The lists of template methods and the class members are transcribed from the templates.
* **C63** Generated code implements the declarations of the schema (partial): `C63_declarations_partial`, `C63_expressions_partial`, `C63_builtin_types`, `C63_range_bounds`, `C63_bit_sizes`, `C63_hash_functions`. The types, bounds, sizes and hash functions without exception; expressions as far as C59 holds (C63_declarations_partial, C63_expressions_partial). Fields that are absent or hold a value of another type have no meaning in the language, and nothing is claimed for expressions that use them. The number of nested function calls is bounded by a parameter the theorems quantify over.
* **C64** Schemas the compiler accepts round trip (partial): `C64_checked_conditions`, `C64_well_formed_partial`, `C64_root_types_partial`, `C64_closed_types_partial`, `C64_roundtrip_partial`, `C64_decode_partial`, `C64_write_accepts_exactly`, `C64_alignment_refuted`, `C64_implicit_refuted`. False of the code for align(0) and for implicit arrays that are conditional, in a choice or follow each other (C64_alignment_refuted, C64_implicit_refuted); proved for schemas without align(0), with implicit arrays last and choices with a field. C64_write_accepts_exactly and C64_checked_conditions hold for every accepted schema.
* **C65** Literals mean in generated code what they mean in the schema (partial): `C65_integers`, `C65_floats`, `C65_strings_partial`, `C65_string_texts`, `C65_octal_refuted`, `C65_surrogates_refuted`, `C65_calculated_values`. False of the code for octal escapes of three digits after the zero (C65_octal_refuted): string literals are proved for the others. Pairs of surrogates are read as documented but cannot be encoded (C65_surrogates_refuted).
* **C66** Compile-time values and bounds of integer expressions are true of their runtime values (partial): `C66_bounds_partial`, `C66_dynamic_bit_fields_partial`, `C66_numbits_upper_bound`, `C66_negation_refuted`, `C66_shift_left_refuted`, `C66_shift_right_refuted`, `C66_numbits_refuted`, `C66_inverted_mask_refuted`, `C66_constant_division_refuted`, `C66_wide_length_refuted`, `C66_declared_partial`, `C66_generated_partial`, `C66_declared_length_partial`. Partial because the full statement is false of the code: bounds of -x are not exchanged, bounds of shifts are wrong for negative operands or non-constant shifts, numbits(0) is 1 for the compiler and 0 for the code, ~ of a bitmask constant is taken as a negative number, lengths from 2^31 wrap, constant division by zero in a branch that is not taken makes the compiler fail (refuted by witnesses). Proved for all expressions without these; what declarations say of names, fields, elements, lengths and functions is a hypothesis there, and derived from the declarations of a schema in C66_declared_partial, C66_generated_partial and C66_declared_length_partial, for objects that hold values of their declared types.
* **C67** The code for packed arrays that generated code calls is generated (partial): `C67_packed_code_partial`, `C67_element_factories_partial`, `C67_self_packed_refuted`, `C67_only_where_used`, `C67_packable_types`, `C67_packable_fields`, `C67_no_indirect_recursion`, `C67_contexts_finite`. Partial because the full statement is false of the code: a type with a packed array of its own type whose other fields have generated classes that are in no other packed array gets code that calls methods which were not generated (refuted by a witness). Proved for all other schemas; templates of the schema language are not modelled.
* **C68** Enum items, bitmask values and constants have the documented values (partial): `C68_enum_values`, `C68_enum_accepted_partial`, `C68_enum_class`, `C68_removed_items`, `C68_mask_values_partial`, `C68_mask_checked`, `C68_mask_text`, `C68_constants_partial`, `C68_zero_refuted`, `C68_conditional_item_refuted`, `C68_conditional_constant_refuted`, `C68_constant_division_refuted`, `C68_constant_shift_refuted`. Partial because the full statement is false of the code: after a value 0 the next bitmask value is 2 although 1 is unused; items whose value the compiler does not calculate (conditional expressions) make it fail with a NullPointerException; constants are checked only if the compiler calculates their value, and with division rounding towards zero, which the generated code does not (refuted by witnesses). Proved for all other items and constants. Base types that are dynamic bit fields are not modelled; values of names in expressions are those declarations promise (as in C66).
* **C69** Choices select the documented branch (partial): `C69_selection_partial`, `C69_accepted_partial`, `C69_runtime_choices`, `C69_both_labels_refuted`, `C69_negated_label_refuted`, `C69_inverted_label_refuted`, `C69_conditional_label_refuted`, `C69_function_label_refuted`, `C69_division_label_refuted`, `C69_constant_label_refuted`. Partial because the full statement is false of the code (refuted by witnesses): a boolean choice with both labels for one branch generates code that starts with else; labels whose value the compiler does not calculate (booleans other than true and false, conditionals) or calculates differently from the generated code (inverted bitmasks, divisions of negative numbers) can be equal; constants of another enumeration and functions of parameters are accepted as labels. Proved for labels whose value the compiler calculates and for which C59 and C66 hold. Simplified: the text of an expression is compared as its tree.
* **C70** Expressions of an accepted schema use only what has been read, and calls of functions end (partial): `C70_preceding_fields_partial`, `C70_members_partial`, `C70_names_known_partial`, `C70_calls_end`, `C70_methods_callable`, `C70_later_field_refuted`, `C70_function_names_refuted`, `C70_other_object_refuted`. Proved for all schemas in which no field has the name of a constant (C70_calls_end needs no such restriction). False without: C70_later_field_refuted, C70_function_names_refuted. C70_other_object_refuted: a schema all whose expressions are determined by what has been read can be rejected.
* **C71** Names stand for the documented symbols (partial): `C71_import_order`, `C71_references_import_order`, `C71_unqualified_partial`, `C71_only_imported`, `C71_qualified_partial`, `C71_qualified_expression_partial`, `C71_plain_expression`, `C71_type_reference_partial`, `C71_type_reference_qualified_partial`, `C71_type_reference_rejected`, `C71_expression_kinds`, `C71_wildcard_added`, `C71_symbol_added`, `C71_local_refuted`, `C71_precedence_refuted`, `C71_ambiguity_refuted`, `C71_own_import_refuted`, `C71_hidden_package_refuted`, `C71_function_dot_refuted`. The order of imports, visibility only by import and the absence of silent changes are proved without restriction. Partial because the documented rules are false of the code where single imports overlap with local symbols or with imports of whole packages, for imports of own symbols and for expressions that start with the name of a field (refuted by witnesses).
* **C72** Generated modules can be imported in any order (partial): `C72_importable_partial`, `C72_condition_necessary`, `C72_recursive_subtype_fails`, `C72_importable_refuted`. The condition is proved both sufficient (any sequence of imports) and necessary. Partial because without it the claim is false of the code: an accepted schema whose structure is used by itself under the name of a subtype cannot be imported (refuted by witness).
* **C73** A template instantiation is the template with the arguments in place of the parameters (partial): `C73_reference`, `C73_types`, `C73_arguments`, `C73_names_partial`, `C73_other_names`, `C73_names_refuted`, `C73_visible_refuted`, `C73_hidden_refuted`, `C73_parameter_refuted`. Proved without restriction for types. Partial because the claim about names in expressions is false of the code unless the reference to the argument means the same in the package of the template and no field hides it (refuted by witnesses).
* **C74** References to one template with the same arguments have one type, under the documented name (partial): `C74_shared_partial`, `C74_told_apart_partial`, `C74_requested_partial`, `C74_default`, `C74_names_partial`, `C74_ends_partial`, `C74_ends_refuted`, `C74_shared_refuted`, `C74_told_apart_refuted`, `C74_accepted_refuted`, `C74_requested_refuted`, `C74_names_refuted`. Partial: shared and told apart for references whose arguments name no `instantiate` type and no subtype of an instantiation and whose names fit in 64 characters; names distinct if none is cut or looks like one with a hash code; ends if finitely many types are reached. Each restriction is one that the code needs (the _refuted theorems).
* **C75** Accepted compound types are recursive only where an object can end, and have type info (partial): `C75_accepted_exactly`, `C75_objects`, `C75_type_info_exactly`, `C75_type_info_fails`, `C75_type_info_partial`, `C75_type_info_refuted`, `C75_check_refuted`. Acceptance and objects are proved in full; type_info is proved to return exactly when the types that it asks for are not recursive, which acceptance gives only without compound types in parameters, results of functions and template arguments (C75_type_info_refuted). The check itself does not end for some rejected schemas (C75_check_refuted).
* **C76** Setting offsets stores at the place that the offset expression stands for (partial): `C76_shape`, `C76_code`, `C76_sets_partial`, `C76_sets_refuted`, `C76_constant_refuted`, `C76_duplicates`, `C76_duplicates_refuted`. The shape of accepted expressions, their code and the meaning of the assignment are proved in full. The claim itself fails for expressions that end in a parameter of another object or in a constant of a named package, which are accepted and never set (C76_sets_refuted, C76_constant_refuted); different paths can be the same place (C76_duplicates_refuted).
* **C77** Whatever has been read can be walked over and written as JSON (partial): `C77_shape`, `C77_walk`, `C77_json`, `C77_round_trip_partial`, `C77_mask_refuted`, `C77_empty_case_refuted`. Layout, walking and writing JSON are proved in full. Reading the JSON back fails for bitmasks out of range, which packed arrays deliver (C77_mask_refuted), for cases of choices without a field (C77_empty_case_refuted) and for extended fields (C46_extended_refuted); it is proved for schemas without the latter two and values without the former.
* **C78** Several objects in one JSON stream are read back one by one (proved): `C78_stream`, `C78_one`, `C78_lookahead_refuted`. Objects that JSON keeps are those of C46. What follows an object matters: read looks at the token behind it (C78_lookahead_refuted).
* **C79** The type information of an object that has been read is true of it (proved): `C79_true`, `C79_compiled`, `C79_length_refuted`, `C79_encoding`, `C79_written`. Hypothesis steady_schema: an expression that has a value before later members are set keeps it, proved of all compiled schemas (C79_compiled). A negative length is read as an empty array (C79_length_refuted). C79_encoding and C79_written say what IMPLICIT, PACKED, EXTENDED, ALIGN and OFFSET are for: a schema rebuilt from the type information alone has the same encoding.
* **C80** New versions of a schema read old data as the evolution guide promises (proved): `C80_backward`, `C80_backward_deserialize`, `C80_appended`, `C80_serialized`, `C80_forward`, `C80_empty_default_refuted`, `C80_no_field_refuted`. Expressions must be the same functions in both versions. The guide's permission to add a case beside an empty default is false (C80_empty_default_refuted), and adding one to a choice none of whose cases has a field too (C80_no_field_refuted).
* **C81** Names in generated classes and methods mean what the generator meant (partial): `C81_class_partial`, `C81_packages_partial`, `C81_own_names_partial`, `C81_class_refuted`, `C81_package_refuted`, `C81_library_refuted`. Proved for packages not named like a library or builtin used by templates; the class works exactly if no member takes the name of a decorator needed after it, and packages are found in methods exactly if not named like one of their local variables. Without these conditions it is false (C81_class_refuted, C81_package_refuted, C81_library_refuted).
* **C82** Documentation comments do not change generated code (partial): `C82_extent_partial`, `C82_members_partial`, `C82_value_partial`, `C82_shown`, `C82_quotes_refuted`, `C82_escapes_refuted`. The doc string ends where it should exactly if no string of the comment has three quotes in a row that are not escaped, and has the value as written if there are no backslashes. Without these conditions it is false (C82_quotes_refuted, C82_escapes_refuted).
* **C83** Api modules reach all of the generated code (proved): `C83_reaches`. Modules of types and constants are assumed to be importable, which is C72.
* **C84** Constants and initializers are values of their types (partial): `C84_constants_partial`, `C84_initializers_partial`, `C84_dynamic_bit_fields_partial`, `C84_conditional_refuted`, `C84_division_refuted`, `C84_numbits_refuted`, `C84_negative_shift_refuted`, `C84_dynamic_length_refuted`. partial: false of the code for conditionals (not checked at all), divisions with a remainder and operands of different signs, numbits(0), shifts by negative numbers, and dynamic bit fields of a length known only at run time (refuted); expressions for which C59 fails are excluded.
* **C85** Expressions without warnings read no absent optional field (partial): `C85_expressions_partial`, `C85_conditions_partial`, `C85_results_partial`, `C85_repeated_refuted`, `C85_operators_refuted`, `C85_objects_refuted`, `C85_elements_refuted`, `C85_recursive_refuted`, `C85_conditional_refuted`. partial: false of the code for expressions that mention an optional field more than once, for conditions with && as an operand of other operators, for elements of arrays of the type itself, for conditions on fields of other objects of the type itself, and for the ternary operator, which the compiler does not check by design (refuted, a theorem each).
* **C86** Expressions are read with the documented precedence (partial): `C86_parsed`, `C86_whole`, `C86_written`, `C86_one_reading`, `C86_two_operators`, `C86_signs`, `C86_conditionals`, `C86_shapes`, `C86_expressions`, `C86_shift_partial`, `C86_shift_refuted`. partial only for the check that >> contains no space, which is false of the code across lines (refuted). The treatment of left recursive rules by ANTLR is trusted; expressions of the length of bit fields, which > follows, are covered by C89.
* **C87** A schema is read as the words it consists of (partial): `C87_words_partial`, `C87_empty_comment`, `C87_words_refuted`, `C87_lossless`, `C87_longest`, `C87_comments`, `C87_errors`, `C87_names`, `C87_integers`, `C87_fractions`, `C87_strings`, `C87_expressions_partial`, `C87_values_partial`. ANTLR's choice of rules (longest match, then first rule, non-greedy loops end as soon as possible within their rule) is trusted. C87_words_partial and C87_expressions_partial exclude /**/ followed by */ (C87_empty_comment says exactly what happens then, C87_words_refuted that the documented rule is violated).
* **C88** A schema consists of the files of the packages it imports, each read once (proved): `C88_packages`, `C88_ends`, `C88_accepted`, `C88_import_order`, `C88_absolute_refuted`. What files contain is given; C71 says what imported names mean, C87 why names are identifiers. C88_absolute_refuted: absolute names of input files are documented but never accepted without source path or top level package.
* **C89** A schema can be read in one way only (partial): `C89_one_reading_partial`, `C89_declarations_partial`, `C89_texts_partial`, `C89_length_or_template`, `C89_offsets`, `C89_constraint_or_offset`, `C89_one_reading_refuted`, `C89_words`, `C89_words_differ`, `C89_builtin_words`. The grammar as trees and the words of a tree; that ANTLR finds a tree of the words if there is one is trusted. Partial because of the two exceptions, for which the precise condition (C89_length_or_template, C89_offsets) and a schema with two readings (C89_one_reading_refuted) are given.
* **C90** Names and paths in expressions denote in generated code what they denote in the schema (partial): `C90_paths`, `C90_one_meaning`, `C90_one_reading`, `C90_valid_partial`, `C90_literal_refuted`, `C90_package_refuted`, `C90_function_refuted`, `C90_example`, `C90_plain_example`, `C90_names`, `C90_modules`. C90_valid_partial excludes dots after expressions without type that are not names of packages, for which the claim is false (C90_literal_refuted, C90_package_refuted, C90_function_refuted). Items written after a value of an enumeration (`color.RED`) and calls of functions in parentheses are accepted by the compiler but have no documented meaning; they are covered by C90_valid_partial only.
* **C91** Running the compiler again brings the generated code up to date (partial): `C91_up_to_date_partial`, `C91_ignore_timestamps`, `C91_nothing_to_do`, `C91_header`, `C91_files`, `C91_kept`, `C91_shared_refuted`, `C91_restored_refuted`, `C91_cut_refuted`, `C91_left_over_refuted`, `C91_example`, `C91_files_example`, `C91_settled_example`. What a text declares and what is generated for the texts that were read are arbitrary functions. C91_up_to_date_partial excludes sources that get another text with an older time, runs that end inside of a file and several schemas in one directory, for which the claim is false (C91_shared_refuted, C91_restored_refuted, C91_cut_refuted; C91_kept is the general reason). Files that are no longer generated stay (C91_left_over_refuted).
* **C92** String expressions: their value, which are constant and their length (partial): `C92_value_partial`, `C92_accepted`, `C92_text`, `C92_joined`, `C92_length_partial`, `C92_length_refuted`, `C92_example`. C92_value_partial excludes literals with \0coo (false for these, C65_octal_refuted). C92_length_partial: the run-time length is never more, and the same exactly if no escape is used; that it is always the same is false (C92_length_refuted).
* **C93** Which warnings are printed (proved): `C93_printed`, `C93_accepted`, `C93_order`.
* **C94** Rules and SQL names are unique without regard to case (proved): `C94_rules`, `C94_sql`, `C94_global_refuted`. C94_global_refuted is about the sentence of the language overview that identifiers of rules must be unique globally: by default they are checked package by package.
* **C95** Versions and the compatibility directive (proved): `C95_order`, `C95_text`, `C95_directive`, `C95_packed`, `C95_warned`, `C95_package_refuted`, `C95_extension`. C95_packed is about the version the root package requires. Versions that other packages require are not checked (C95_package_refuted), there is a warning only (C95_warned).
* **C96** SQL tables are checked and explicit parameters have one meaning (partial): `C96_explicit`, `C96_provider`, `C96_once_partial`, `C96_accepted`, `C96_quiet`, `C96_twice_refuted`. What SqlConstraint.java finds in the text of constraints is given (C99). Missing because false: a method is defined once also if parameters of one type are declared by different subtypes (C96_twice_refuted).
* **C97** Types reported as unused can be removed (partial): `C97_reported`, `C97_once`, `C97_removable_partial`, `C97_expression_refuted`, `C97_template_refuted`. Missing because false: types named in expressions only (C97_expression_refuted) and by templates without instances only (C97_template_refuted) are reported, though the schema needs them.
* **C98** Services and Pub/Sub are accepted only with types that can be sent (partial): `C98_service`, `C98_pubsub_partial`, `C98_topic_refuted`. Missing because false: the topic of a message of bytes is not checked (C98_topic_refuted).
* **C99** Keys and columns are found in SQL constraints (partial): `C99_primary_key_partial`, `C99_unique_partial`, `C99_words`, `C99_order_refuted`, `C99_second_refuted`, `C99_quoted_refuted`. Names of columns are letters, digits and underscores. Missing because false: columns with ASC or DESC (C99_order_refuted), a second UNIQUE (C99_second_refuted), words inside quotes (C99_quoted_refuted).
