# Formal model of corda-cpp-amqp in Rocq (Coq 8.16.1)

Sources: `/repo` (C++), read as text. Nothing is built or run. All Coq files are in
`rocq/theories`, logical name `Verif`.

## 1. Shape of the model

* `Base.v` – outcomes and strings. A C++ call becomes a function returning one of
  `Ok`, `Throw` (a C++ exception; the state at the throw is kept so that destructors
  can be run), `Abort` (a failed `assert`), `UB` (undefined behaviour: null dereference,
  out-of-range read, `front()` of an empty list, flowing off a non-void function,
  reading an uninitialised value) and `Fuel` (the model's own recursion bound ran out;
  theorems exclude it).
* `Proton.v` – qpid-proton's `pn_data_t` as a zipper: a forest with a current node (or
  none) and a stack of parents; plus `libs/proton-wrapper`: `attest_*`, `is_*`, `get_*`,
  `auto_enter`, `auto_next`, `auto_list_enter`, `readAndNext<T>`. Destructors are run on
  both normal and exceptional exits.
* `TypeNames.v` – `SchemaUtils.cxx`, `Array::arrayType`, `RestrictedDescriptor::makePrim`,
  `javaTypeName`.
* `Schema.v` – fields, composites, restricted types, `dependsOn` scores, `Schema`.
* `Ordering.v` – `OrderedTypeNotations::insert` over an arbitrary score function.
* `Descriptors.v` – `build` and `makeProton` of the Corda descriptors, descriptor codes.
* `Factory.v` – `CompositeFactory::process` and its two maps; readers are heap objects
  named by ids so that weak pointers and expired readers can be expressed. The order in
  which a compiler evaluates the two arguments of `make_shared<MapReader>` is a parameter.
* `Readers.v` – the readers' `dump` and `IValue::dump`. The user's custom serialisers and
  the formatting of doubles are parameters; the order of evaluation of a map entry's key and
  value is a parameter.
* `Serialisers.v` – the readers' `read`, `readString` and `write`.
* `Blob.v` – `AMQPBlob::dumpContents`, `AMQPBlob::dumpData`.
* `Writer.v` – `ModifiableAMQPBlobImpl`, `SerialiserFactoryWriters.h`, `Serializable*`. What
  a user's `serialiseImpl` writes is the data type `item`.
* `Programs.v` – programs that serialise: classes with the properties their `serialiseImpl`
  writes, and the values of a C++ type. `WriterTests.v` – the twelve in `bin/writer-tests`.
  `ReaderTests.v` – the six in `bin/reader-tests`.
* `Deserialise.v` – `SerialiserFactory::deserialise`, `ReadPrimitive.h`,
  `ReadNonPrimitive.h`, `AMQPBlob::readyPayload/startComposite/endComposite`. What a user's
  constructor reads is a list of types (`ctype`) for each class.
* `SchemaDump.v` – `AMQPBlob::dumpSchema`: `readRaw` and `readAvro` of the Corda descriptors.
* `CordaFile.v` – `CordaBytes.cxx`.
* `Print.v` – the stream operators of the schema classes.
* `Script.v` – objects whose `serialiseImpl` throws or catches exceptions: the functions of
  `Writer.v` with exceptions that unwind through the destructors that close objects.
* `ReadScript.v` – classes that read by programs: the functions of `Deserialise.v` with classes that branch
  on what they read, throw and catch.
* `Amqp.v` – an AMQP 1.0 decoder and encoder (after the standard; proton itself is not in /repo).
* `Numbers.v` – `std::to_string` for double and float.
* `TestFiles.v`, `Conformance.v` – no properties, but tests of the model itself: the 25 files in
  `bin/test-files` with the texts that `blob-inspector-test.cxx` expects, from the bytes of the file to
  the text; the three files in `bin/reader-tests`, which the writer of the model reproduces byte by byte;
  and the unit tests in `libs/amqp/src/test` and `libs/corda-utils/test` whose results do not need proton
  (orders, printed levels, names). All agree, also the one test that is switched off because the library
  shows properties in the wrong order (C40).
* `Memory.v` – the same writer, and opening of files, with the memory that is managed by hand.

Specifications against which the theorems are stated live in `Spec*.v` and use of the model
only its data types (and, where a property is about a sequence of API calls, the calls
themselves). Proofs are in `*Proofs.v`. The property theorems are in `Prop*.v`, which hold
nothing else: each is followed by `Print Assumptions` and by an `Example` showing that a
non-trivial case meets its hypotheses.

| properties | model | specification | proofs | theorems |
|----|----|----|----|----|
| C01-C03 | `CordaFile` | `SpecFile` | `CordaFileProofs` | `PropFile` |
| C04-C09 | `TypeNames` | `SpecTypes` | `TypeNamesProofs`, `MakePrimProofs`, `MakePrimExactProofs` | `PropTypeNames` |
| C10-C17 | `Ordering`, `Schema` | `SpecOrdering`, `SpecSchema` | `OrderingProofs`, `SchemaProofs` | `PropOrdering` |
| C18-C23, C53, C55 | `Proton`, `Descriptors` | `SpecDescriptors`, `SpecCursor`, `SpecNames` | `ProtonProofs`, `DescriptorsProofs` | `PropDescriptors` |
| C24-C29, C56 | `Factory` | `SpecFactory` | `FactoryProofs` | `PropFactory` |
| C30-C37, C51, C52 | `Readers`, `Blob` | `SpecReaders`, `SpecSamples`, `SpecCursor` | `ReadersProofs`, `InspectProofs`, `RawProofs` | `PropReaders` |
| C38-C42, C50 | `Writer` | `SpecWriter` | `WriterProofs` | `PropWriter` |
| C43-C48, C57 | `Deserialise` | `SpecDeserialise` | `DeserialiseProofs` | `PropDeserialise` |
| C49, C62 | all | `SpecWriteRead` | `WriteReadProofs`, `ManyProofs` | `PropWriteRead` |
| C58, C59 | `SchemaDump` | `SpecSchemaDump` | `SchemaDumpProofs`, `RawSchemaProofs` | `PropSchemaDump` |
| C60, C61 | `SchemaDump` | `SpecJson`, `SpecAvro` | `JsonProofs`, `AvroProofs`, `AvroJsonProofs` | `PropSchemaDump` |
| C63-C65 | `Tools` | `SpecTools` | `ToolsProofs` | `PropTools` |
| C66 | `Descriptors` | `SpecAccept` | `AcceptProofs` | `PropAccept` |
| C67 | `Readers`, `Blob`, `SchemaDump`, `Tools` | `SpecBlind` | `BlindProofs` | `PropBlind` |
| C68, C69 | `Readers`, `Blob`, `Factory` | `SpecDisplay`, `SpecInstalled`, `SpecAccept` | `DisplayProofs`, `ContentsProofs` | `PropDisplay` |
| C70, C71 | `Deserialise`, `Writer`, `File` | `SpecReadBack` | `ReadBackProofs` | `PropReadBack` |
| C72 | `Blob` | `SpecRaw`, `SpecReaders` | `RawShowProofs` | `PropRaw` |
| C73 | `Writer` | `SpecWriter` | `WriterProofs` | `PropWriter` |
| C74 | `Serialisers` | `SpecSerialisers` | `SerialisersProofs` | `PropSerialisers` |
| C75-C78 | `Programs`, `WriterTests` | `SpecPrograms`, `SpecWriterTests` | `ProgramsProofs`, `ProgramChecks`, `DecideProofs`, `WriterTestsProofs` | `PropPrograms` |
| C79, C80 | all | `SpecFrame` | `FrameProofs`, `FrameObjects` | `PropFrame` |
| C81, C82 | `ReaderTests` | `SpecReaderTests` | `ReaderTestsProofs` | `PropReaderTests` |
| C83, C84 | `Factory`, `Blob` | `SpecSupply` | `SupplyProofs`, `ShownProofs` | `PropSupply`, `PropShown` |
| C85 | `Print` | `SpecPrint` | `PrintProofs` | `PropPrint` |
| C86 | `CordaFile`, `Tools` | `SpecCrash` | `CrashProofs` | `PropCrash` |
| C87 | `Script` | `SpecScript` | `ScriptProofs`, `ScriptWireProofs` | `PropScript` |
| C88 | `Amqp` | `SpecAmqp` | `AmqpProofs`, `AmqpFileProofs` | `PropAmqp` |
| C89 | `Memory` | `SpecMemory` | `MemoryProofs` | `PropMemory` |
| C90 | `Numbers` | `SpecNumbers` | `NumbersProofs` | `PropNumbers` |
| C91 | `ReadScript`, `Deserialise` | `SpecReadScript`, `SpecReadBack` | `ReadScriptProofs` | `PropReadScript` |
| C92 | `Descriptors`, `Schema`, `Ordering` | `SpecParse` | `ParseProofs` | `PropParse` |
| C93 | `Descriptors`, `Factory`, `Readers`, `Blob`, `Tools` | `SpecFate` | `PrepareProofs`, `FateProofs`, `FateBlobProofs` | `PropFate` |
| C94 | `Factory`, `Blob` | `SpecSession` (with `sitting`, the model run on a history) | `SessionProofs` | `PropSession` |
| C95 | `SchemaDump`, `Tools` | `SpecSchemaFate` | `SchemaFateProofs` | `PropSchemaFate` |
| C96 | `Output` (`Blob`, `Tools` with their output) | `SpecOutput` | `OutputProofs` | `PropOutput` |
| C97 | `OutputSchema` (`SchemaDump`, `Tools` with their output) | `SpecSchemaOutput` | `SchemaOutputProofs` | `PropSchemaOutput` |
| C98 | `Readers`, `Blob`, `Numbers` | `SpecApart` | `ApartProofs` | `PropApart` |
| C99 | `Copies` | `SpecCopies` | `CopiesProofs`, `CopiesExact`, `CopiesReadProofs` | `PropCopies` |
| C100 | `Writer`, `Programs`, `CordaFile` | `SpecIdentity` | `IdentityProofs` | `PropIdentity` |
| C101 | `OutputWriter` (with `Writer`, `Programs`, `TypeNames`) | `SpecOutputWriter` | `OutputWriterProofs` | `PropOutputWriter` |
| C102 | `OutputReader` (with `Deserialise`, `Output`, `OutputWriter`) | `SpecOutputReader` | `OutputReaderProofs` | `PropOutputReader` |
| C103 | `Blob`, `Readers`, `Tools` | `SpecToolJson`, `SpecJson` | `ToolJsonProofs`, `JsonProofs` | `PropToolJson` |
| C104 | `TypeNames` | `SpecNames` | `NamesProofs` | `PropNames` |
| C105 | `OutputShow` (with `Readers`, `Blob`, `Output`) | `SpecOutputShow` | `OutputShowProofs`, `OutputShowBlobProofs`, `OutputShowHideProofs` | `PropOutputShow` |
| C106 | `OutputParse` (with `Descriptors`, `Blob`, `OutputShow`) | `SpecOutputParse`, `SpecOutputAll` | `OutputParseProofs`, `OutputParseBlobProofs`, `OutputParseShownProofs`, `OutputAllProofs` | `PropOutputParse`, `PropOutputAll` |
| C107 | `OutputMake` (with `Schema`, `Ordering`) | `SpecOutputMake` | `OutputMakeProofs` | `PropOutputMake` |
| C108 | `OutputProcess` (with `Factory`, `OutputParse`) | `SpecOutputProcess` | `OutputProcessProofs`, `OutputProcessBlobProofs` | `PropOutputProcess` |
| C54 | all readers | `SpecHistory` | `HistoryProofs` | `PropHistory` |

Naming: a theorem `Cnn_…` is proved as stated; `Cnn_…_partial` is a part of the property
(the comment says what is missing); `Cnn_…_refuted` shows that the faithful model violates
the property, with a witness or for a whole class of inputs.

## 2. Plan per property

| id | modelled / proved how |
|----|----|
| C01 | `CordaFile.v`; file contents as byte lists; equational proof. |
| C02 | same; case analysis on the first eight bytes. |
| C03 | same; uninitialised encoding is `UB`; expected to be refuted with a 7-byte file. |
| C04-C06 | `TypeNames.v` against a type-expression grammar with a printer; structural induction; termination by string length. |
| C07 | `makePrim` as sequential regex replacement; induction over the string; expected to be refuted for class names containing a boxed name, positive theorem for the rest. |
| C08 | `isArray` with out-of-range reads as `UB`; refuted on short strings and on nested arrays; exact on the rest. |
| C09 | `javaTypeName` on demangled names; induction over namespace paths. |
| C10-C11 | `Ordering.v` with an arbitrary score; invariants over insert sequences; termination measure = number of elements in the suffix. |
| C12-C13 | invariant "every recorded dependency is in an earlier group". |
| C14 | refuted by a concrete acyclic set of classes, traced through processing. One insertion: exact criterion (nothing needed is in a later group than something that needs the newcomer). Sequences: every order in which newcomers find their neighbours in order (`bridged`), by the same invariant; C24, C31, C49, C62, C77 and C80 use it through `listed`. |
| C15-C16 | `Schema.v`; case analysis on both types; C16 refuted for arrays and for map/enum. |
| C17 | `Schema` as association lists, first entry wins. |
| C18 | bit arithmetic on `N`; finite table. |
| C19-C22 | `build (makeProton x) = x` by symbolic execution of the cursor programs, induction on lists. |
| C23 | positive part for known codes; refuted for unknown codes (null registry entry). |
| C24-C27 | invariants of the factory maps over sequences of schemas; C26 refuted. |
| C28 | positive part: install first; refuted: install after processing. |
| C29 | refuted: wildcard with no required type calls `front()` on an empty list. |
| C30,C54,C55,C59 | a compositional "level-safe" predicate on cursor programs: same tree, same parents, on both normal and exceptional exits. |
| C31 | readers against a schema-directed rendering of abstract values; induction on values. |
| C32 | evaluation order is a parameter; proved for left-to-right, refuted for right-to-left. |
| C33-C35 | refuted with witnesses; exact behaviour characterised for all trees. |
| C36 | induction over value trees with a bracket-stack specification. |
| C37 | corollary of C30 and C25. |
| C38 | writer refines a denotational encoding of object graphs; induction on objects. |
| C39,C42 | invariants of the writer's schema map; C42 refuted by null pointer / empty vector. |
| C40 | positive for alphabetical writers, refuted otherwise. |
| C41 | purity of `toBlob`. |
| C43 | induction on object types; deserialising the encoding gives the object. |
| C44-C48 | exact behaviour for all inputs plus refutations. |
| C49 | composition of C22, C24, C31, C38-C40: the value an object stands for conforms to the schema the writer made; injectivity of printed type expressions. Refuted where C14 fails. |
| C50 | exact characterisation, refuted. |
| C51,C52 | raw dumper against a structural printer; C52 refuted. |
| C53 | exact for every assertion and test; refuted for the string assertion and the test for primitive values. |
| C56 | refuted: two versions of a class in one factory; the reader of the first is kept. |
| C57 | refuted both ways by characterising reads of objects with fewer and with more properties than the class. |
| C58 | symbolic execution of `readRaw` against an outline of the wire schema; refuted for enum constants. |
| C59 | the level-safe predicate of C30 for `readRaw` and `readAvro`. |
| C60 | exact text by symbolic execution, then derivations in a JSON grammar (`SpecJson`); refuted with a scanner that accepts every JSON text and rejects the dumps. |
| C61 | exact outcome of the Avro dump; refuted. |
| C62 | induction on the objects; each step is C49 for a factory that knows some of the types already (C24, C31). |
| C63 | case analysis on arguments and files (C01-C04); every exception of the raw dumpers is a runtime error, by induction on the nesting. Refuted where the tools crash. |
| C64 | composition of C38-C40 with C02, C51, C58 and C49. |
| C65 | C54 (the data stays the same) with C02. |
| C66 | inversion of every builder, by induction on the nesting; ordering the types keeps them whatever the scores. |
| C67 | every function commutes with changing the bytes of binary values; closed under the combinators, by induction on the nesting. |
| C68 | an inductive relation says which payloads are shown and how; the readers are sound for it by induction on the nesting of the payload, and complete by induction on the derivation; failing forms by running the model on payloads with variables. |
| C69 | inversion of the same relation, with the factory invariant that installed serialisers stay installed; refuted inside collections. |
| C70 | `deserialise` on any tree is decided against two relations over trees, what is read and where reading is undefined, by induction on the fuel; the three outcomes are exclusive. |
| C71 | composition of C65 (saving after any operations) with the round trip of the deserialiser. |
| C72 | one pass over `dumpData`: each function returns a text, and only that one, exactly if the relation `raw_shows` holds, and throws exactly if no text does; induction on the fuel, which bounds the height of the tree. |
| C73 | every object is either well formed (C39) or has an unsafe pointer; the first one in writing order is reached with the writer's invariant intact (induction over objects, the `emits` relation of C38), where logging it is undefined. |
| C74 | the factory invariant of C24 says which reader a type has; case analysis on it. Refuted for everything but five primitive types. |
| C75 | a program gives its classes' properties (`Programs.v`); the values of a type are defined by recursion; what occurs in a typed object is typed, by induction, so the entries of C39 are those declared; a sorted list is determined by its members. |
| C76 | C75 with the exact form of C49: inspection is processing the schema, then printing. |
| C77 | typed objects are inspectable (C49) by induction over objects; refuted with the relation of C68, by induction over the parts of an object. |
| C78 | C76 and one computation of processing for each set of types; texts by induction over the arguments. |
| C79 | two factories are kept in step while processing the schema (simulation: same keys mentioned, related readers), then reading, by induction on fuel. |
| C80 | C79 with the history of the blob-inspector (one serialiser installed) and the empty one; C63 for the file. |
| C81 | C70 for the classes of the reader, C02 for the file; what `integers` means is spelled out with `part` (C68). |
| C82 | C43 and C44 for the objects, C46 for the list; C80 for the files. |
| C83 | one lemma per lookup, lifted to entries and schemas by induction; three exclusive conditions on the names alone; induction over the history for the types left without a reader. |
| C84 | C83 applied to the schema of C38 and C75; the value printed is that of C49. |
| C85 | texts are cut at the first line break or colon that the parts do not contain; induction over properties, levels and types. |
| C86 | a crash leaves a proper prefix of the saved file; case analysis on its length, C05 and C64 for each tool. |
| C87 | mutual induction over scripts: running one writes the trees, types and properties up to the exception, and is running `serialise` on the object cut there; the zipper keeps its ancestors. |
| C88 | the encodings of a value are a relation after the standard; mutual induction over it for the decoder, induction over trees for the encoder; a parser that succeeds on a prefix leaves the rest, which rules out cuts. |
| C89 | mutual induction over scripts: the number of trees follows the number of properties known to the writer; with C87, that of the schema. |
| C90 | the value as a rational number from the IEEE 754 fields; rounding to even bounded by arithmetic on integers; the text read back by a separate reader of digits. |
| C91 | class programs as trees that branch on what is read; a relation in terms of the received tree says what each gets; simulation by induction on the nesting and on the program; the relation is shown to be a function. |
| C92 | the parser as a function of the tree without a cursor (`SpecParse`); the code that moves a cursor refines it, by induction on the depth; a boolean check on trees implies that behaviour is defined. |
| C93 | inspection as a function of the tree without readers, cursor or factory (`SpecFate`), with four endings; parsing (C92), preparing the schema and reading values each refine their part of it, by induction on the schema and on the depth; what may be thrown, what aborts and what is undefined follow from the function. |
| C94 | what a factory remembers as four lists (`SpecSession`), updated by each blob without readers or pointers; an invariant relates it to the two maps and the heap of the factory, kept by every entry, whether it is known, new, fails or is undefined (induction on the schema), and by every inspection and installation (induction on the history); blobs that agree are shown as by C93 (induction on the depth of the value). |
| C95 | the raw lines and the Avro text written as functions of a tree (`SpecSchemaFate`) that have no cursor and no stream; every `readRaw` and `readAvro` ends as they say and leaves the cursor on the element (induction on the depth of the tree, with a lemma for each descriptor and for the loops over lists); the exceptions, aborts and conditions follow from the specification by a second induction. |
| C96 | `Output.v` repeats the functions under `dumpData` with what they write; `data_dump` (`SpecOutput`) says of a tree alone which lines are written and how the dump ends; the model does that (induction on the depth), and dropping the output from it gives the model of `Blob.v` from any cursor (simulation); the refuted parts follow for every successful run, since the first debug line is always there. |
| C97 | `OutputSchema.v` repeats the functions under `dumpSchema` with what they write; `raw_lines` and `avro_lines` (`SpecSchemaOutput`) say of a tree alone which lines are written, and C95's functions how the dump ends; the model does that (induction on the depth), and dropping the output from it gives the model of `SchemaDump.v` from any cursor; the refuted parts follow for every successful run, and no JSON text begins with a debug line. |
| C98 | `indistinct` (`SpecApart`) says which two values share all that is shown; by C31 the text is that of `printed`, and from a text that goes on with a blank, a comma or nothing the value in front is recovered up to `indistinct` (induction on the value, both values conforming to one type). Partial: strings with quotation marks, refuted for all pairs of a form. |
| C99 | the readers and the deserialiser with a log of what they ask for with `new`, shown to refine those of `Readers`, `Blob` and `Deserialise`; an invariant of the factory (no reader of binary values) for any blob, and the log of C31's induction for exact sizes. Partial: false with binary values, and for pointers when an exception is thrown; both refuted for all cases with the exact amount. |
| C100 | the payload determines the object of a given type (induction on the object), and the fingerprint its type; conversely the schema of C39 is unique. For files, with C88. Partial: refuted for two versions of a class that write their properties in different orders. |
| C101 | the writer once more with its debug lines, in a state with the text written so far; the platform (paths, line numbers of macro calls over several lines, typeid names, addresses, number formats, order of evaluation) is a parameter. A simulation: each step of the writer corresponds to events of the specification, where a property is described the first time only. Partial: refuted for every object. |
| C102 | the deserialiser once more with its debug lines, also those of destructors; the platform, the names of types and proton's names and numbers are parameters. A simulation by induction on the depth against a specification that is a function of the decoded tree and goes by places (C70). Partial: refuted whenever an object is returned. |
| C103 | JSON by its grammar (`SpecJson`), against the texts of C31 and C72. That a text is not JSON: two automata that every JSON text passes, one for brackets and characters outside quotation marks, one for "a colon comes after a string". Induction on values for the exact criterion. Partial + refutation: the outer wrapping alone spoils it. |
| C104 | The functions on type names on every text, well formed or not. Specification on characters, without positions (`SpecNames`): the text up to and past a character, the first comma outside brackets, the inductive relation `names_in` for the types mentioned, the inductive relation `replaced` for leftmost replacement. Equality of functions by induction on the text. The specifications of C11 - C16, C19, C20, C66, C92 and C95 refer to `SpecNames` and not to the parsers. |
| C105 | The readers that show a payload once more with their debug lines; what is written before (reading the schema, making the readers) is a parameter. A simulation by induction on the depth against a specification that is a function of the decoded tree; the part about what is not given away is a relation between two runs of the specification, by induction on the depth. Partial: refuted whenever there is an integer property. |
| C106 | The builders of schema elements, `dispatchDescribed` and `dumpContents` once more with their debug lines; the texts of `Field::make`, `Restricted::make`, `insert` and making the readers are parameters. A simulation by induction on the depth against a specification that is a function of the decoded tree; what is always written follows by taking the specification apart, what is never written as for C105. The four texts are then replaced by those of C107 and C108: two specifications that agree unless behaviour is undefined, by induction over the same structure. |
| C107 | `Field::make`, `Restricted::make`, `dependsOn` and `insert` once more with their debug lines. The exact text is a list of lines defined by cases on the names, with loops as members up to the first that is found; insertion by induction on the number of types that can be moved, with conservation of types (C10) to keep the induction going. What does not show: erasing it commutes with inserting. |
| C108 | The functions of `CompositeFactoryInternal` once more with their debug lines. The specification runs over the types of the schema with a book of the serialisers there are and their names; the factory of the model keeps that book (a relation between its table, its heap and the book), through every function. Composed with C106 by replacing the parameter. What does not show: erasing it leaves the specification unchanged. |

## 3. Trusted base

* Coq's kernel (8.16.1).
* `Print Assumptions` says "Closed under the global context" for every property theorem:
  no axioms, neither our own nor the standard library's. (`vcheck` lists seven constants of
  `Coq.ssr.ssrunder`; they are loaded with the standard library and no theorem uses them.)
* The reading of the C++ source in the lines cited at each definition.
* The semantics of the qpid-proton cursor described in `Proton.v` (proton itself is not in
  `/repo`): a failed `pn_data_next` leaves the cursor where it is, `pn_data_enter` on a node
  without children succeeds for compound nodes, getters return zero values on a node of
  another type, strings written with a C string length end at the first NUL byte,
  `pn_data_append` leaves its source unchanged.
* The C++17 standard library functions used (`std::string::substr/find`, `std::regex` for the
  eight patterns of `makePrim`, `std::map` ordering by `operator<` on strings, `std::list`
  splice semantics, `shared_ptr`/`weak_ptr`).

Not modelled: the text of debug output, except for data-dumper (C96), schema-dumper (C97),
serialising (C101), deserialising (C102), showing a payload (C105) and reading a schema and making its readers
(C106, C107, C108). `libs/corda-utils/include/debug.h` switches `DBG`
on, so the library mixes debug lines (and the word STRING, `proton_wrapper.cxx:578`) into
standard output; results of the tools (C63, C64) are what `main` itself prints. All `DBG`
sites have been checked for what evaluating them does: two matter and are modelled
(`computeIfAbsent` following a null entry, C26; pointers to char printed as C strings, C73).
Nor are modelled: what the command-line tools write to standard error, memory allocation
failure, the AMQP binary codec inside proton (blobs are modelled as decoded trees; C63-C65
take the decoder and encoder as parameters, C88 shows that what they assume holds for the codec
of the AMQP 1.0 standard, and the header is covered by C01-C03), formatting of doubles and floats
(parameters, except in C90 and in `Conformance.v`), threads (the library uses none), integer widths of `int` and `long` values
(integers are passed through unchanged; `long` is taken to be `int64_t` as on 64-bit Linux, so that
`readAndNext<long>` is the specialised template).
