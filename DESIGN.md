# Formal model of loopholelabs/polyglot in Coq 8.16.1

## 1. Approach

* Standard library only (`List`, `ZArith`, `Lia`, `Bool`, `String`, ...); no axioms (section 5).
* Bytes are `Z` with the predicate `0 <= b < 256`; byte strings are `list Z`. Machine integers are `Z` with the
  wrap written explicitly where the code wraps (`u8`, `u16`, `u32`, `u64`, `s32`, `s64`, `sw W`).
* A Go panic, a TypeScript exception, a Rust error, a Rust panic, C undefined behaviour and a process abort are
  distinct explicit outcomes; a slice index out of range is an outcome, never a default value. Loops that Coq
  cannot see terminate carry fuel, and running out of fuel is a panic-like outcome; the theorems show it is not
  reached (or, for recursive generated code, characterise when it is: C48, C57).
* `Spec.v` is the small specification: the type of wire values and the wire format `wire : value -> list Z`
  (kind byte, base-128 varints, zig-zag, big-endian floats). It does not mention any implementation.
* One model file per implementation (`*Model.v`), transcribed function by function with file/line citations.
  Specification vocabulary is in `*Spec.v`, proofs in the other files, and the property theorems, with
  `Print Assumptions` underneath and `Example`s showing that the hypotheses are met, in `Prop*.v`.
* Where the natural property is false of the code, the property is stated in its exact form (an `iff` saying when
  it holds, or the exact result in every case) and the failing instance is a theorem ending in `_refuted`: the
  code as it stands has these defects. No theorem is `_partial`.

## 2. Files (rocq/theories)

| files | content |
|---|---|
| `Base`, `Spec`, `SpecProofs` | machine integers, Go-style indexing; values, validity, wire format; facts about it |
| `V1Model`, `V2Model` | **models** of the Go packages `/repo` and `/repo/v2` |
| `GoSpec`, `BufSpec` | vocabulary: acceptance of inputs, the byte log |
| `GoLoop`, `GoIdeal`, `V1Enc`, `V2Enc`, `V1Dec`, `V2Dec`, `GoProps*`, `GoWidth`, `GoThms*`, `GoBuf*` | proofs for Go |
| `PropEnc`, `PropDec`, `PropBuf` | C01-C27, C31, C32, C55 |
| `PoolModel`, `PoolSpec`, `PoolProofs`, `PoolBuf`, `PropPool` | **model** of the two pools under any schedule; C28-C30 |
| `Utf8`, `RustModel`, `RustSpec`, `RustDec`, `RustEnc`, `RustThms*`, `PropRust` | UTF-8; **model** of the Rust crate; C33-C37, C43, C51 |
| `TsModel`, `TsSpec`, `TsEnc`, `TsDec`, `TsText`, `TsThms*`, `PropTs` | **model** of the TypeScript package; C38-C42, C52-C54 |
| `CModel`, `CSpec`, `CThms`, `PropC` | **model** of the C bindings; C44, C45, C56 |
| `GenTables`, `GenModel`, `GenSpec`, `GenLemmas`, `GenFields`, `GenDec`, `GenThms*`, `GenTerm*`, `GenTab`, `PropGen` | generator tables; **model** of the generated Go code of both versions, for every schema; C46-C49, C57-C59 |
| `NameModel`, `NameSpec`, `NameThms*`, `PropName` | **model** of `utils/utils.go`; C50, C60 |
| `RsGenModel`, `RsGenSpec`, `RsGenLemmas`, `RsGenDec`, `RsGenRound`, `RsGenAny`, `RsGenThms`, `RsDeps`, `PropRsGen` | **model** of the generated Rust code for every schema and of `generator/rust/imports.go`; C61-C67 |
| `PropDup` | C68 (spec in `GenSpec`: `sent_struct`, `last_wins`, `collapse`) |
| `EmitModel`, `EmitSpec`, `EmitThms`, `EmitThms2`, `EmitThms3`, `CompSpec`, `CompThms`, `PropEmit` | **model** of the declarations emitted by the Go and Rust templates (enums, maps, structs, constructors, methods) and of FindValue; C69-C72 |
| `GenExt`, `GenStuck`, `GenThms4`, `PropGen2` | C73, C74 |
| `EvolveSpec`, `EvolveThms`, `PropEvolve` | C75, C76 |
| `GenTrace`, `TraceSpec`, `GenTraceThms`, `GenTraceInv`, `GenTraceSplit`, `GenTraceEnd`, `GenPick`, `GenPick2`, `GenTorn`, `PropGen3` | **model** of the generated Go decoders with the struct after an error, the slices and maps made and a memory limit; C77, C78 |
| `CostSpec`, `GoCost`, `PropCost` | C79 |
| `TsGenModel`, `TsGenSpec`, `TsGenThms`, `TsGenThms2`, `PropTsGen` | **model** of the TypeScript generator: dependency tracking, the statements of encode and decode methods, imports; C80, C81 |
| `RsTrunc`, `RsMore`, `RsEvolve`, `PropRsGen2` | generated Rust: truncation, more input, schema evolution; C82-C85 |
| `AliasModel`, `AliasSpec`, `AliasThms`, `AliasThms2`, `AliasThms3`, `PropAlias` | explicit memory: encoders fed with the buffer's own slices, decoders with destinations; C86, C87 |
| `Vectors` | the repository's shared test vectors (integration-test-data.json) run through the five models: a check of the models, not a proof |
| `PkgModel`, `PkgSpec`, `PkgThms`, `PkgThms2`, `PkgThms3`, `PropPkg` | **model** of whole requests to the Go generator, Go's rules for the declarations of a package; C88, C89 |
| `RsPkgModel`, `RsPkgSpec`, `RsPkgThms`, `RsPkgThms2`, `RsPkgThms3`, `PropRsPkg` | **model** of whole requests to the Rust generator, Rust's rules for the items of a module; C90, C91 |
| `GoAst`, `GoEmit` | **model**: the Go that generated code uses (syntax, what running it does, with a heap), and the Go templates written in it |
| `GoRunSpec`, `GoCallSpec` | **spec**: trees in memory, what a call did, which names clash |
| `GoLink` ... `GoCalls4`, `PropGoRun` | C92, C93 |
| `GoTypes` | **model**: Go's type checker on the syntax of `GoAst` |
| `GoTypesSpec` | **spec**: what is supported, in protobuf's terms |
| `GoTypes2` ... `GoTypes8`, `PropGoTypes` | C94 |
| `TplText`, `TplModel`, `TplGo`, `GoLex`, `TplSpec`, `TplHead` | the Go templates as text, **model** of text/template and of what the templates call, Go's lexical rules and the tokens of a program; which files are legal; the headers of Rust and TypeScript files |
| `TplExec`, `GoLexThms`, `TplThms`-`TplThms10`, `TplNames`, `PropTpl` | C95, C96 |
| `RsAst`, `RsEmit`, `RsRunSpec` | Rust programs and how they run (**model**); the Rust templates as programs; what a Rust value stands for, which files |
| `RsRun1`-`RsRun5`, `PropRsRun` | C97, C98 |
| `RsTplText`, `RsLex`, `RsTpl`, `RsTplSpec` | the Rust templates as text, Rust's lexical rules and the tokens of a program, **model** of what the templates call; which files are legal |
| `RsLexThms`, `RsTplThms`-`RsTplThms7`, `PropRsTpl` | C99 |
| `TsTplText`, `TsLex`, `TsTpl`, `TsTplSpec` | the TypeScript templates as text, TypeScript's lexical rules and the tokens of a file, **model** of what the templates call; which files are legal |
| `TsLexThms`, `TsTplThms`-`TsTplThms8`, `PropTsTpl` | C100 |
| `GoParse` | a parser for the part of Go that generated files use |
| `GoParseThms`-`GoParseThms5`, `PropGoParse` | C101 |
| `LexExamples` | the lexical rules of Go, Rust and TypeScript on texts written by hand |
| `TplExamples` | the model of text/template on templates written by hand |
| `GoRunExamples` | the model of Go on programs written by hand, read by `GoParse` |
| `GoTypesExamples` | the type checker on functions written by hand |

## 3. Per property: what is modelled and how it is proved

| id | modelled | proof |
|---|---|---|
| C01 v1 encoder output is exactly the wire format | v1 `Buffer` as backing array + length, `append` with an arbitrary growth policy; encoders literally | per-call lemma `enc v` appends `wire v`; induction over the call list |
| C02 v2 encoder output is exactly the wire format | v2 `Buffer` as backing array, slice length, offset, abandoned arrays; encoders as the literal nested ifs | ladder lemmas; induction over the call list with invariant "slice length = capacity" |
| C03 v1 round trip of any message sequence | decoders literally, result triple or panic | per-value lemma `dec (wire v ++ r) = (r, v)`; induction |
| C04 v2 round trip of any message sequence | same, v2 | same |
| C05 v1 and v2 interoperate | both | corollary of C01-C04 |
| C06 v2 Bytes length boundary | v2 encodeBytes at >= 2^28 | exact output computed symbolically for all lengths; refuted above the boundary |
| C07 encoded size of every value is minimal and bounded | spec varint; v2 reservations | arithmetic, induction on digits |
| C08 wire format is uniquely decodable | spec | prefix-freeness per value by decoding; induction |
| C09 signed integers survive over their full range | zig-zag | bit lemmas |
| C10 floats are preserved bit for bit | float bits | bit lemmas |
| C11 asking for the wrong kind is an error and consumes nothing | all decode requests of both versions on arbitrary inputs | case analysis on the common compact semantics (`GoIdeal`), proved equal to the literal models |
| C12 v1 decoder panics exactly on truncated varints | same | exact iff; refuted "never panics" |
| C13 v2 decoder panics exactly on truncated varints | same | exact iff |
| C14 the remaining input is a suffix and progress is made | same | suffix/progress for every outcome; refuted for zero-byte v2 results |
| C15 decoding is independent of what follows | same | extension lemma on the scan |
| C16 what a failed decode leaves behind | same | exact rest after every failure; atomicity refuted |
| C17 a truncated message is never mistaken for a complete one | same | prefix of a wire never accepted |
| C18 exact acceptance of overlong and overflowing varints | same | exact acceptance in terms of base-128 digits |
| C19 v1 Bytes destination semantics | destination slice as option list | case analysis |
| C20 v2 Bytes destination semantics and unterminated lengths | destination slice with memory | case analysis |
| C21 Bool acceptance | Bool | case analysis |
| C22 v2 Buffer behaves as a byte log under any history | v2 buffer operations as a state machine | refinement to a byte log over any history |
| C23 Grow always makes the requested room | Grow | exact post-condition |
| C24 NewBufferFromBytes with spare capacity is unsafe | NewBufferFromBytes with len < cap | exact behaviour; contract refuted |
| C25 MoveOffset repositions the write cursor | MoveOffset | exact behaviour |
| C26 slices handed out by v2 Bytes() stay valid while appending | views = (array generation, length) into kept arrays | invariant: bytes below a view are never rewritten without Reset/MoveOffset |
| C27 slices handed out by v1 Bytes() stay valid while appending | same, v1 | same |
| C28 a pooled buffer is always handed out empty | pool as a bag with nondeterministic get/drop, threads, pending puts | invariant over arbitrary schedules |
| C29 pool users do not interfere | same | non-interference by projection of traces |
| C30 v1 decoder pool | v1 decoder pool | instance of the same machine |
| C31 Error identity | errors as strings | direct |
| C32 length handling on 32-bit platforms | `int` width parameter W of the decoders | exact condition for W = 32 and 64 |
| C33 Rust encoder output is exactly the wire format | Rust cursor writer | per-call lemma; induction |
| C34 Rust round trip | Rust cursor reader | corollary |
| C35 Rust decode failures: where the cursor ends up | same | exact cursor after every failure |
| C36 Rust decoder never reads outside the buffer and only moves forward on success | same | bounds invariant; panic set on 32-bit |
| C37 Go and Rust interoperate | Go and Rust | composition |
| C38 TypeScript encoder output is exactly the wire format given room | TypeScript typed arrays and views | per-part lemma; exact room condition |
| C39 TypeScript encoder corrupts data at the buffer edge | same | iff; refutations at the edge |
| C40 TypeScript decoder reads valid encodings | TypeScript decoder | exact semantics `treads`, then on wires |
| C41 TypeScript decoder on truncated input | same | exact results on every truncation |
| C42 all decoders agree on valid input | all | corollaries |
| C43 Go and Rust agree on integers in malformed input | Go and Rust | comparison of exact acceptance |
| C44 C bindings report status faithfully | C bindings over the Rust model, NULL as `None`, undefined behaviour explicit | case analysis; induction over programs |
| C45 C buffer export is length checked | same | same; 2^32 truncation refuted |
| C46 generated Go messages round trip | generated code as an interpreter of the templates over an arbitrary schema | nested induction on struct values |
| C47 nil sub-messages are ambiguous | same | first-byte analysis |
| C48 generated decoding terminates | generated decode with a stack bound | well-foundedness of the left-edge relation; explicit overflow input; version 1: an input of zero values that leads to a chosen message field (its length bounded through the number of fields, hence the 2^26) |
| C49 generator kind tables are consistent | LUTs as functions on protobuf kinds | finite case analysis (the domain is finite) |
| C50 identifier conversion | `utils.go` loops over byte strings | induction over strings; grammar `NameSpec` |
| C51 Rust kind bytes | Rust `Kind` | case analysis |
| C52 TypeScript bytes snapshots are stable | TypeScript `bytes` subarrays | invariant |
| C53 TypeScript decoder behaviour is exactly specified | TypeScript decoder on arbitrary input | iff with an independent relation |
| C54 TypeScript out-of-range arguments | TypeScript encoder on out-of-range integers | modular arithmetic |
| C55 exactly which inputs the Go decoders accept | Go decoders on arbitrary input | iff with an independent acceptance relation |
| C56 C results and their release | C heap of results | frame lemmas over programs |
| C57 version 1 constructors terminate | v1 `NewM()` | well-foundedness of the creates relation |
| C58 generated encoding follows the documented layout | generated encode of both versions through the buffers | induction; independent `layout` |
| C59 generated decoding is memory and type safe | generated decode on arbitrary input | induction on the stack bound |
| C60 lower-casing helpers | `utils.go` | induction over strings |
| C61 generated Rust encoding | generated Rust encode as an interpreter of the templates over an arbitrary schema, through the cursor model | nested induction on struct values; compared with the independent `layout` |
| C62 generated Rust round trip | generated Rust decode, same | nested induction: outcome is Ok exactly if Rust can hold the value; first-byte analysis for the error probe |
| C63 generated Go and generated Rust understand each other | Go and Rust generated code | composition through `layout` |
| C64 errors in place of messages (Rust) | same | direct; skip lemma for unreadable errors |
| C65 generated Rust decoding is safe on any input | same, with an allocator oracle and a stack bound | induction on the stack bound; depth of singular nesting from well-foundedness |
| C66 memory requested by generated Rust decoding | same | explicit input; corollary of C65 |
| C67 the Rust generator's import analysis | `imports.go` over descriptors, recursion with a stack bound | well-foundedness of the mentions relation, pigeonhole for cycles |
| C68 repeated map keys: the last one wins, in every language | the generated map loops (assignment / `HashMap::insert` on an entry list) | the exact decode theorems restated for values whose maps are entry sequences ([sent_struct]); the insertion loop computes [last_wins] |
| C69 which schemas are supported | the type-checking predicates of `GenModel` (`compiles`) and `RsGenModel` (`rs_compiles`), derived from the look-up tables | case analysis over kinds; acyclicity of the containment graph for Rust |
| C70 what generated code declares | the declarations the templates emit, over arbitrary descriptors (`EmitModel`) | induction over the nesting of messages |
| C71 which names are legal in generated code | the same, with the name helpers of `NameModel` and the reserved words of the three languages | exact preimages of a lower-case word under CamelCase, SnakeCase and LowercaseCamelCase |
| C72 enum values are numbered by position | `enums.templ` of Go and Rust | induction over the list of values |
| C73 an error in place of a message is not a message (Go) | `error` template (`Error1`, `Error2`) and generated decoders on input no decoder method accepts | induction on the stack: on stuck input every pass either fails or consumes nothing |
| C74 generated Go decoders: more input, less input | generated decoders on `b` and `b ++ q` | extension of every primitive (C15) lifted through the templates by induction on the stack; truncation from it and C46 |
| C75 schema changes that do not matter | pairs of schemas related by a correspondence of message types | induction over values: types, layouts and readability are preserved |
| C76 fields added to a message | the same, with appended fields | the layout of a grown message is the old one plus a non-empty rest, then C46 and C74 |
| C77 the struct after a failed generated Go decode | generated Go decode functions with the partial struct after an error (GenTrace) | refinement of GenModel.decode; induction over the fields in wire order; schema extension (GenPick) to state what the decoded prefix is |
| C78 memory requested by generated Go decoding | the make calls of generated Go decode functions, with an arbitrary memory limit (GenTrace) | invariant over decode: 4 bytes per make, elements against consumed bytes; limited execution = truncated unlimited one |
| C79 what a v2 buffer costs | v2 Buffer histories of V2Model with every backing array ever abandoned | invariant over runs: capacity doubles, abandoned + initial <= current; every encode has the memory effect of Grow with its reservation |
| C80 the TypeScript generator: names | the TypeScript generator as a state transformer over the dependency set, statements of encode and decode methods (TsGenModel) | each template action is shown to produce a determined statement and to add determined names; sets compared class by class |
| C81 the TypeScript generator: field order | as C80 | stable partition of the field list; disjointness of the groups |
| C82 generated Rust: a cut message is never accepted | the generated Rust encode/decode over the library model, bytes as in C61 | induction on the message value: at the first primitive that is cut the library decoder fails and the failure reaches the caller, the probes for nil and error values being quiet on what is left of the message |
| C83 generated Rust: bytes that follow do not matter | as C82, arbitrary bytes as input | induction on the fuel of the decoder, library level lemma: a successful read is unchanged by more input; the error probe can be disturbed only at the very end of the input, after which only vacuous types succeed |
| C84 generated Rust: compatible schemas | as C61/C58, with two schemas and a correspondence between their messages (EvolveSpec.compatible) | the two schemas give the same bytes; then the exact decoding theorems of C63, C58 |
| C85 generated Rust: added fields | EvolveSpec.grown, in_order | the bytes of a new message are those of the old one followed by those of the added fields; for the new reader any completion of the old message is a counterexample to C82 otherwise |
| C86 a buffer may be fed its own contents | buffers with all arrays they use or have used, slices as positions in one of them; Write and encodeBytes reading their argument through memory, statement by statement | invariant: everything the buffer holds is a prefix of its array, old arrays are not written and a kept slice lies in the written prefix of its array; so stores at the end of the buffer do not change it |
| C87 decoded byte slices and memory | a heap of arrays, slices with position, length and capacity, append in place or into a new array with any spare capacity; decodeBytes of both versions statement by statement on it | per call: the effect on every cell of the heap and the agreement with the byte-string model; induction on the calls |
| C88 a request to the Go generator | Generate and ExecuteTemplate over a list of file descriptors, output = name, import path, header, declarations; a panicking template function is an error | induction over the files and over the nesting of messages |
| C89 which generated Go packages follow Go's declaration rules | the same; Go's rules as a record over the output, protobuf conditions as a record over the descriptor | members of a type through an association list with distinct keys; references through the text of each field type |
| C90 a request to the Rust generator | Generate and ExecuteTemplate over file descriptors with a bounded stack and rustfmt as a parameter; output = name, imports, declarations | induction over the files; the traversal against an inductive reachability predicate, its end against an inductive well-foundedness predicate |
| C91 which generated Rust modules follow Rust's rules for items | the same; Rust's rules as a record over the output, protobuf conditions as a record over the descriptor | the words of each field type by induction over the text; the equivalence clause by clause |
| C92 running generated Go code: Decode and New | the templates emit an abstract syntax of the Go used; an interpreter with a heap, environments, panics, stack depth and compile errors runs it | each emitted statement refines one step of the tree decoder under a footprint (separation-style) representation of trees in the heap; induction over fields, elements, fuel |
| C93 running generated Go code: Encode, Error, and the round trip in memory | the same | induction over trees and fuel; composition with the layout and round-trip theorems of C46 and C58 |
| C94 the Go compiler's type checker on generated code | a type checker for the Go subset of GoAst (scopes, assignability, method sets of the library, unused variables), run on the program the templates emit | both directions: every declaration of a supported file checks, by cases on fields; a checked program contains checked parts, each of which excludes one unsupported feature |
| C95 the text of a generated Go file | The template files, byte for byte; a parser for text/template's actions (range, if, template, define, variables, trim markers) and an interpreter for them; protoreflect's descriptor methods and the FuncMap; a lexer for Go; a printer of tokens for the programs of GoAst. | One lemma per template: executing it from a lexer state writes the tokens of one declaration and comes back to that state, for arbitrary names; induction on the nesting of messages; the names protoc allows are shown to have Go identifiers as Go names. |
| C96 the header of Rust and TypeScript files | The two template files of either generator, executed by the model of text/template of C95, with the other templates, their functions and the rest of the data arbitrary. | Execution of base.templ (head.templ) up to the header. |
| C97 running a generated Rust decode | A syntax and an interpreter for the Rust that the templates write; the templates as functions from descriptors to that syntax; values of structs, enums, vectors and maps by name. | Linking (each name stands for one item), then induction on the stack; each expression and loop is matched with a step of the tree decoder of C61. |
| C98 running a generated Rust encode, and the two languages together | As in C97; encode writes into the same Cursor. | Induction on the stack against the list of Encoder calls of C61; composition with C62, C63, C92 and C93. |
| C99 the text of a generated Rust file | The template files, byte for byte; the parser and interpreter for text/template of C95; protoreflect's descriptor methods and the FuncMap of the Rust generator; a lexer for Rust; a printer of tokens for the programs of RsAst. | One lemma per template: executing it from a lexer state writes the tokens of one item (a statement, a field) and comes back to that state, for arbitrary names; induction on the nesting of messages; the names protoc allows are shown to have words as Rust names. |
| C100 the text of a generated TypeScript file | The template files, byte for byte; the parser and interpreter for text/template of C95, with range over a map; protoreflect's descriptor methods and the FuncMap of the TypeScript generator; a lexer for TypeScript that keeps line breaks; a printer of tokens for the declarations of TsGenModel. | One lemma per template: executing it from a lexer state writes the tokens of one declaration (a method, a statement) and ends where a line has just ended, for arbitrary names; induction on the nesting of messages; induction on the files of a request, whose recorded names accumulate; the names recorded are words. The finding about maps is read off the text of a file with one map field. |
| C101 a generated Go file can be read, and only as the program the other properties are about | What C95 models (the template files byte for byte, their execution, Go's lexical rules), and a recursive-descent parser, by Go's grammar, from tokens to the syntax of GoAst, for the part of Go that generated files use. | What follows an operand is read to the end for every continuation (induction on the expression, the continuation arbitrary), which gives expressions, statements, blocks and declarations; that the program of any file is within what is read back (its names are neither keywords nor nil, make, polyglot) from the names of the file; the parser is monotone in the bound of its depth, so that no two bounds give different readings; composition with C93 and C94. |

Not expressible in the model: performance, data races at the level of the Go memory model (pool steps are atomic per
call), and the correctness of the Go/JS/Rust compilers and runtimes.

## 4. Trusted base

1. Coq 8.16.1's kernel (and `vm_compute`, which it contains, used for closed examples).
2. The transcription of the code into Gallina; every definition cites file and lines.
3. Behaviour of library code, taken from its documentation:
   * Go: slices, `append` (any growth policy, any contents of the spare capacity), `copy`, `make`; `sync.Pool` as a bag
     from which any element or nothing may be returned and elements dropped at any time; `range` over strings and
     `utf8.DecodeRuneInString`; `unicode.ToLower` beyond ASCII is an arbitrary function; `map` iteration order arbitrary.
   * Rust: `std::io::Cursor`, `str::from_utf8`, `Vec` (allocation failure aborts and is not modelled), `as` casts.
   * JavaScript: typed arrays (silent out-of-range stores, `undefined` loads, `RangeError`s), `DataView`,
     `TextEncoder`/`TextDecoder` (WHATWG), NaN payloads arbitrary per engine.
   * C: NULL/dangling dereference, reading beyond an object and deallocating with the wrong size are undefined behaviour.
4. The text of `Spec.v` and the `*Spec.v` vocabularies as a reading of the English properties.

### Modelled

Go v1 (`buffer.go`, `encode.go`, `encoder.go`, `decode.go`, `decoder.go`, errors), Go v2 (`v2/buffer.go`, `encode.go`,
`encoder.go`, `decode.go`, `decoder.go`, `error.go`, `pool.go`), Rust (`kind.rs`, `encoder.rs`, `decoder.rs`, `error.rs`
variants), TypeScript (`encoder.ts`, `decoder.ts`, `kind.ts`), C bindings (`c_bindings/*.rs`), the generators' look-up
tables (`structs.go` of the three languages), the Go templates of both versions (struct, new, encode, decode, field by
field), and `utils/utils.go`.
The Rust templates (encode, decode, decodeMap, field by field) and `generator/rust/imports.go`.
The declarations (not the text) emitted by base, enums, errors, messages and structs.templ of Go and Rust, with FindValue of both structs.go.
The TypeScript generator: structs.go, trackDependency, Generate, ExecuteTemplate and all templates, statement by statement.
`buf.Bytes()[i:j]` passed back to Write and encodeBytes of both Go versions and the destination argument of Bytes(), on explicit memory (C86, C87).
Whole requests to the Go generator (`generator/golang/generator.go`: Generate, ExecuteTemplate; headers.go, imports.go and the base, headers and imports templates) (C88, C89).
Whole requests to the Rust generator (`generator/rust/generator.go`: Generate, ExecuteTemplate; headers.go, imports.go, and the base and imports templates) (C90, C91).
The bodies of generated Go functions, statement by statement (`generator/golang/templates/*.templ` and v2), as programs that run in a memory of structs, arrays and maps (C92, C93).
Go's static rules as far as generated Go code meets them (C94).
The template files of both Go generators as text, executed by a model of text/template (C95); base/head and headers templates of Rust and TypeScript (C96).
Generated Rust programs as syntax, run by an interpreter (C97, C98).
The template files of the Rust generators as text (the two versions have the same), executed by the model of text/template (C99).
The template files of the TypeScript generators as text (the two versions have the same), executed by the model of text/template (C100).
The text of generated Go files, read back: a parser by Go's grammar (C101).


### Simplified or not modelled

* Callers do not modify slices while the library uses them (an argument that aliases the buffer, and destinations of decoders, are the subject of C86, C87).
* Method calls on a pooled object are atomic; a data race inside one call is outside the model (a client that holds an
  object exclusively cannot have one: that is what C29 proves).
* TypeScript: non-integral Numbers passed as integers, bigints below -2^53, resizable/detached ArrayBuffers.
* C: arguments do not alias; the library's memory is not modified by C code.
* Generated code: structs are trees; nil and empty slices are identified; maps are entry lists without duplicate keys;
  enum values are their numbers; custom fields/encode/decode snippets are empty (the default); `compiles` says which
  schemas produce Go code that compiles as far as types go (identifier collisions, C50, can also break compilation).
  After an error the half-filled struct is represented only by the instrumented decoder of `GenTrace.v` (C77), proved to erase to the plain one.
* Not modelled: the serialisation of plugin requests and responses (protobuf-go, a dependency), the `buf` build, formatting of
  generated text, benchmarks, tests.
* Generated Rust: `HashMap::new` and its growth never fail; `Vec::with_capacity` consults an arbitrary allocator oracle.
* Generated Go: every theorem but C78's assumes that `make` never fails; C78 relates executions with any limit to the unlimited ones. make(map, n) is taken not to fail (n is a hint).
* Generated TypeScript is not executed: the functions it calls do not exist (C80); only the names and the order of its statements are modelled.
* C88, C89: what protogen computes (file order, output prefixes, Go package names, the final formatting of the response) is taken as given.
* C90, C91: rustfmt is an arbitrary accept/reject function; what it writes is taken to have the declarations it was given.
* C92, C93: the Go subset's semantics is ours (GoAst lists the simplifications: byte slices are values there, see C86-C87 for their aliasing; range order is the list's; a slice covers its whole array; code that is not executed is not looked at by the compiler). That the generated text has the tokens of the syntax GoEmit gives is C95, and that those tokens parse to it is C101.
* C94: the type checker is ours, written from the Go specification for the subset of Go that the templates use; unused imports are C72's subject; constant overflow is checked only for enum constants.
* C95: text/template is modelled for the actions the templates use (its own parser is outside); Go's lexical rules are for ASCII, without raw strings, runes and /* */ comments; gofmt, which protogen applies to the text, is outside.
* C97, C98: the Rust templates are transcribed to syntax by hand; that their text has the tokens of that syntax is C99; ownership and types of Rust are not checked by the interpreter (rs_compiles says what compiles); derive and HashMap's order: any order is allowed, as a list.
* C99: Rust's lexical rules are for ASCII, without raw strings, character literals and /* */ comments; rustfmt, which lays the text out again, is outside; that names may be keywords of Rust is left to rustc, which then rejects the file.
* C100: TypeScript's lexical rules are for ASCII, without escapes in strings, template literals, regular expressions and /* */ comments; that names may be reserved words is left to tsc. The FuncMap functions record imports as they are called; the model of C80 says what they record, the model of C100 what the templates write, given what is recorded.
* C101: the parser covers the part of Go's grammar that generated files use (anything else is no reading); whether a call of a name is a function call or a conversion is left to the evaluator (C92), as Go leaves it to the type checker.
* C92, C93: the bound of a counting loop is evaluated once (Go evaluates it before every iteration): the generated loops compare with a variable that is not assigned in the loop. nil assigned to a slice or map is not in the model of Go; generated programs do not do it. A comment after a trim marker is not in the model of text/template; no template has one.


## 5. Print Assumptions

Every property theorem (all names in `MANIFEST.json`; the `Print Assumptions` commands are in the `Prop*.v` files) prints
`Closed under the global context`: no axioms, not even from the standard library. The constants
`Coq.ssr.ssrunder.Under_rel.*` that a whole-environment axiom scan reports come from the standard library's
`ssreflect` support, loaded as a dependency of `Lia`; no theorem uses them.

## 6. Testing the theorems against wrong programs

`seeded/LOG.jsonl` has one line per attempt: a definition of a model edited the way a bug would, the claim it breaks, the
proof files that stop building, and - from an independent file of executable instances of the property theorems,
evaluated on the edited model - the properties that became false.
