{"id": "C01", "title": "Saved blobs load back byte for byte", "statement": "If a blob is written with CordaBytes::toFile and the resulting file is opened with CordaBytes, the loaded size, bytes and encoding marker are exactly those of the original blob, whether or not header checking is on.", "quantifier": "every byte string used as blob contents, both settings of ignoreHeader", "why_tests_cant": "there are unboundedly many blobs; tests load a handful of fixture files and never write one back", "anchors": ["libs/amqp/src/CordaBytes.cxx:CordaBytes::CordaBytes(path)", "libs/amqp/src/CordaBytes.cxx:CordaBytes::CordaBytes(AMQPBlob)", "libs/amqp/src/CordaBytes.cxx:CordaBytes::toFile"]}
{"id": "C02", "title": "The file header gate accepts exactly Corda files", "statement": "With header checking on, opening a file of at least eight bytes succeeds exactly when its first seven bytes are the Corda magic and the eighth is one of the three known encodings; otherwise it throws. With header checking off, only the encoding byte matters.", "quantifier": "every file content of eight bytes or more, both settings of ignoreHeader", "why_tests_cant": "acceptance must be exact over all 2^64 prefixes and all tails", "anchors": ["libs/amqp/src/CordaBytes.cxx:CordaBytes::CordaBytes(path)", "libs/amqp/include/AMQPHeader.h"]}
{"id": "C03", "title": "Missing and truncated files are rejected cleanly", "statement": "Opening a file that does not exist, cannot be read, or is too short to hold the header and encoding byte throws an exception; it never reads an uninitialised encoding byte and never allocates a buffer of wrapped size.", "quantifier": "every missing or unreadable file and every file content shorter than eight bytes, both settings of ignoreHeader", "why_tests_cant": "the outcome depends on uninitialised memory and unsigned wrap-around, which a passing run does not reveal", "anchors": ["libs/amqp/src/CordaBytes.cxx:CordaBytes::CordaBytes(path)"]}
{"id": "C04", "title": "List type names parse back to their element type", "statement": "Splitting a list type name yields the container name and the element type name, with a boxed Java primitive element turned into its primitive name, no matter how deeply the element type nests.", "quantifier": "every element type name", "why_tests_cant": "type names nest to unbounded depth", "anchors": ["libs/amqp/src/schema/SchemaUtils.cxx:listType", "libs/amqp/src/schema/SchemaUtils.cxx:unbox", "libs/amqp/src/schema/restricted-types/List.cxx"]}
{"id": "C05", "title": "Map type names parse back to their key and value types", "statement": "Splitting a map type name yields the container name, the key type and the value type, for keys and values that are themselves arbitrarily nested generics, with or without blanks after the separating comma.", "quantifier": "every pair of well-bracketed key and value type names, any number of separating blanks", "why_tests_cant": "type names nest to unbounded depth and the separating comma must be found among arbitrarily many nested ones", "anchors": ["libs/amqp/src/schema/SchemaUtils.cxx:mapType", "libs/amqp/src/schema/restricted-types/Map.cxx"]}
{"id": "C06", "title": "Flattening a generic type lists exactly its component types", "statement": "Collecting the component types of a (possibly nested) container type name returns that name and each nested component, once per occurrence, outermost first; the collection terminates on every string, well formed or not.", "quantifier": "every type expression built from lists and maps at any depth; every string for termination", "why_tests_cant": "unbounded nesting, and termination on arbitrary strings cannot be tested", "anchors": ["libs/amqp/src/schema/SchemaUtils.cxx:nestedGenericTypes", "libs/amqp/src/schema/described-types/field-types/RestrictedField.cxx"]}
{"id": "C07", "title": "Boxed primitive names are normalised and nothing else is touched", "statement": "Normalising the type name of a restricted type replaces every boxed Java primitive component by its primitive name and leaves every other component name unchanged; normalising twice is the same as once.", "quantifier": "every type expression over arbitrary class names", "why_tests_cant": "it must hold for every class name, including those which merely contain a boxed name", "anchors": ["libs/amqp/src/schema/descriptors/corda-descriptors/RestrictedDescriptor.cxx:RestrictedDescriptor::makePrim", "libs/amqp/src/schema/SchemaUtils.cxx:unbox"]}
{"id": "C08", "title": "Array type names are recognised and split exactly", "statement": "A type name is treated as an array exactly when it ends in [] or [p], the test is safe on every string, and the element type of an array of T is T.", "quantifier": "every string; every element type, arrays of arrays included", "why_tests_cant": "out-of-range reads on short strings do not reliably fail a test; nesting is unbounded", "anchors": ["libs/amqp/src/schema/SchemaUtils.cxx:isArray", "libs/amqp/src/schema/restricted-types/Array.cxx:Array::arrayType", "libs/amqp/src/schema/restricted-types/Array.cxx:Array::isArrayType"]}
{"id": "C09", "title": "C++ types map to the Java names the schema uses", "statement": "The Java name of a C++ class is its namespace path joined with dots with anonymous namespaces dropped; vectors and maps, nested to any depth, get the matching java.util names, and those names parse back to the names of their components.", "quantifier": "every namespace path and every nesting of vectors and maps", "why_tests_cant": "unbounded nesting of template arguments", "anchors": ["libs/corda-utils/include/types.h:javaTypeName"]}
{"id": "C10", "title": "Building a schema never loses, duplicates or hangs on a type", "statement": "Inserting any sequence of type notations into the schema's ordered collection terminates, and the collection then holds exactly the inserted notations, each once, with no empty group; this holds whatever the dependencies are, cyclic ones included.", "quantifier": "every finite sequence of inserts and every dependency relation", "why_tests_cant": "the insert is recursive and re-inserts displaced elements; termination and conservation must hold for every relation", "anchors": ["libs/amqp/src/schema/OrderedTypeNotations.h:insert", "libs/amqp/src/schema/OrderedTypeNotations.h:insertNewList"]}
{"id": "C11", "title": "Types grouped together never depend on each other", "statement": "After any sequence of inserts, no two notations in the same group of the ordered collection report a dependency on one another, provided the dependency scores are symmetric.", "quantifier": "every finite sequence of inserts and every symmetric dependency relation", "why_tests_cant": "needs an invariant over arbitrary insertion histories", "anchors": ["libs/amqp/src/schema/OrderedTypeNotations.h:insert"]}
{"id": "C12", "title": "Schemas listed dependencies-first are ordered correctly", "statement": "If every type arrives after all the types it depends on, then in the resulting order each type comes in a strictly later group than everything it depends on.", "quantifier": "every acyclic dependency relation and every dependency-first arrival sequence", "why_tests_cant": "ranges over all graphs and linearisations", "anchors": ["libs/amqp/src/schema/OrderedTypeNotations.h:insert"]}
{"id": "C13", "title": "Schemas listed dependents-first are ordered correctly", "statement": "If every type arrives before all the types it depends on, then in the resulting order each type comes in a strictly later group than everything it depends on.", "quantifier": "every acyclic dependency relation and every dependents-first arrival sequence", "why_tests_cant": "ranges over all graphs and linearisations", "anchors": ["libs/amqp/src/schema/OrderedTypeNotations.h:insert"]}
{"id": "C14", "title": "Schemas listed in any order are ordered correctly", "statement": "For every acyclic set of types and every arrival order, each type ends up in a strictly later group than everything it depends on, so that readers can be built in one pass.", "quantifier": "every acyclic dependency relation and every arrival order", "why_tests_cant": "the number of graphs and permutations is unbounded; a failing one needs four or more types in a particular order", "anchors": ["libs/amqp/src/schema/OrderedTypeNotations.h:insert", "libs/amqp/src/assembler/CompositeFactoryInternal.cxx:process"]}
{"id": "C15", "title": "Dependency scores between lists, maps and classes are right", "statement": "Comparing two type notations which are classes, lists or maps reports a dependency exactly when one names the other among its fields or type arguments, and reports the right direction.", "quantifier": "every pair of class, list or map notations with distinct names that do not depend on each other both ways", "why_tests_cant": "ranges over all pairs of schema types", "anchors": ["libs/amqp/src/schema/described-types/Composite.cxx:dependsOnRHS", "libs/amqp/src/schema/restricted-types/List.cxx", "libs/amqp/src/schema/restricted-types/Map.cxx", "libs/amqp/src/schema/restricted-types/Restricted.cxx"]}
{"id": "C16", "title": "Dependency scores involving arrays and enums are right", "statement": "Comparing an array or enum notation with any other notation reports a dependency exactly when one uses the other, with the right direction.", "quantifier": "every pair of notations of which one is an array or an enum", "why_tests_cant": "ranges over all pairs of schema types", "anchors": ["libs/amqp/src/schema/restricted-types/Array.cxx", "libs/amqp/src/schema/restricted-types/Enum.cxx", "libs/amqp/src/schema/restricted-types/Map.cxx:dependsOnEnum"]}
{"id": "C17", "title": "Schema lookup by name and by descriptor is exact", "statement": "In a schema whose type names and fingerprints are distinct, looking up a type name or a fingerprint returns precisely the type carrying it, and looking up anything else throws.", "quantifier": "every schema and every lookup key", "why_tests_cant": "ranges over all schemas and keys", "anchors": ["libs/amqp/src/schema/described-types/Schema.cxx:Schema::fromType", "libs/amqp/src/schema/described-types/Schema.cxx:Schema::fromDescriptor"]}
{"id": "C18", "title": "Corda descriptor codes survive the vendor prefix", "statement": "Stripping the vendor prefix from a prefixed descriptor code gives back the code, and exactly the documented codes, prefixed, are resolved to a descriptor and a printable name; all other codes print as unknown.", "quantifier": "every 32-bit code and every 64-bit value", "why_tests_cant": "2^64 values", "anchors": ["libs/amqp/src/schema/descriptors/AMQPDescriptorRegistory.cxx:stripCorda", "libs/amqp/src/schema/descriptors/AMQPDescriptorRegistory.cxx:describedToString"]}
{"id": "C19", "title": "Field schemas survive encoding", "statement": "Parsing the encoded schema of a property gives back its name, type, required types, default, label and flags.", "quantifier": "every field name, type, list of required types, default, label and flag values", "why_tests_cant": "ranges over all strings and lists", "anchors": ["libs/amqp/src/schema/descriptors/corda-descriptors/FieldDescriptor.cxx:makeProton", "libs/amqp/src/schema/descriptors/corda-descriptors/FieldDescriptor.cxx:build"]}
{"id": "C20", "title": "Class schemas survive encoding", "statement": "Parsing the encoded schema of a class gives back its name, label, implemented interfaces, fingerprint and its properties in order.", "quantifier": "every class name, label, list of interfaces, fingerprint and list of properties", "why_tests_cant": "ranges over all strings and lists", "anchors": ["libs/amqp/src/schema/descriptors/corda-descriptors/CompositeDescriptor.cxx:makeProton", "libs/amqp/src/schema/descriptors/corda-descriptors/CompositeDescriptor.cxx:build"]}
{"id": "C21", "title": "Container schemas survive encoding", "statement": "Parsing the encoded schema of a list or map type gives back its source kind, fingerprint and its (normalised) name with its component types.", "quantifier": "every list or map type name and fingerprint", "why_tests_cant": "ranges over all strings", "anchors": ["libs/amqp/src/schema/descriptors/corda-descriptors/RestrictedDescriptor.cxx:makeProton", "libs/amqp/src/schema/descriptors/corda-descriptors/RestrictedDescriptor.cxx:build", "libs/amqp/src/schema/restricted-types/Restricted.cxx:make"]}
{"id": "C22", "title": "Whole envelopes survive encoding", "statement": "Parsing the envelope produced for a payload and a list of type schemas gives back the payload's outer fingerprint and a schema that contains exactly those types.", "quantifier": "every described payload and every list of type schemas", "why_tests_cant": "ranges over all payloads and schema lists", "anchors": ["libs/amqp/src/schema/descriptors/corda-descriptors/EnvelopeDescriptor.cxx:makeProton", "libs/amqp/src/schema/descriptors/corda-descriptors/EnvelopeDescriptor.cxx:build", "libs/amqp/src/schema/descriptors/corda-descriptors/SchemaDescriptor.cxx:makeProton", "libs/amqp/src/schema/descriptors/corda-descriptors/SchemaDescriptor.cxx:build"]}
{"id": "C23", "title": "Malformed schema sections raise exceptions", "statement": "When the descriptor code found in a schema section is not the expected one, parsing throws; no input makes it dereference a null pointer.", "quantifier": "every tree found where a descriptor is expected", "why_tests_cant": "the set of malformed inputs is unbounded and a null dereference is undefined behaviour", "anchors": ["libs/amqp/src/schema/descriptors/AMQPDescriptors.cxx:validateAndNext", "libs/amqp/src/schema/descriptors/AMQPDescriptor.h:dispatchDescribed"]}
{"id": "C24", "title": "After a schema is processed every type in it can be read", "statement": "When CompositeFactory::process returns normally, every type in the schema resolves by name and by fingerprint to a reader for that type, and every property, element, key and value of that reader resolves to a reader as well.", "quantifier": "every schema and every prior factory state reached by successful operations", "why_tests_cant": "ranges over all schemas and histories", "anchors": ["libs/amqp/src/assembler/CompositeFactoryInternal.cxx:process", "libs/amqp/src/assembler/CompositeFactoryInternal.cxx:processComposite", "libs/amqp/src/assembler/CompositeFactoryInternal.cxx:fetchReaderForRestricted", "libs/amqp/src/assembler/CompositeFactoryInternal.cxx:byDescriptor"]}
{"id": "C25", "title": "Processing a schema again changes nothing", "statement": "Processing a schema that has already been processed returns normally and leaves every lookup unchanged.", "quantifier": "every schema and every factory state reached by successful operations", "why_tests_cant": "ranges over all schemas and histories", "anchors": ["libs/amqp/src/assembler/CompositeFactoryInternal.cxx:process", "libs/amqp/src/assembler/CompositeFactoryInternal.cxx:computeIfAbsent"]}
{"id": "C26", "title": "A failed schema does not poison the factory", "statement": "If processing a schema throws because a type is missing, the factory can still process a later, complete schema.", "quantifier": "every pair of schemas, the first incomplete and the second complete", "why_tests_cant": "needs a specific failing history followed by a good one; the failure is a null dereference", "anchors": ["libs/amqp/src/assembler/CompositeFactoryInternal.cxx:processComposite", "libs/amqp/src/assembler/CompositeFactoryInternal.cxx:fetchReaderForRestricted", "libs/amqp/src/assembler/CompositeFactoryInternal.cxx:computeIfAbsent"]}
{"id": "C27", "title": "Processing more schemas never changes existing readers", "statement": "Every reader found by name before a schema is processed is found, unchanged, afterwards; so is every reader found by fingerprint, provided a fingerprint stands for one type.", "quantifier": "every sequence of schemas, whether or not their processing throws", "why_tests_cant": "ranges over all histories", "anchors": ["libs/amqp/src/assembler/CompositeFactoryInternal.cxx:computeIfAbsent"]}
{"id": "C28", "title": "Custom serialisers can be installed at any time", "statement": "A custom serialiser installed for a type is used for every property of that type, and installing one never breaks readers built before.", "quantifier": "every factory history of installs and processed schemas", "why_tests_cant": "the failure needs an install after a process, and shows up as a dangling reference", "anchors": ["libs/amqp/src/assembler/CompositeFactoryInternal.cxx:installCustomSerialiser", "libs/amqp/src/assembler/CompositeFactoryInternal.cxx:processComposite", "libs/amqp/src/serialiser/serialisers/reader/CompositeReader.cxx"]}
{"id": "C29", "title": "Wildcard properties are resolved or rejected cleanly", "statement": "A property declared with the wildcard type is resolved through its required types, or rejected with an exception; parsing and processing never have undefined behaviour.", "quantifier": "every property declaration", "why_tests_cant": "calling front() on an empty list is undefined behaviour and may go unnoticed", "anchors": ["libs/amqp/src/schema/described-types/field-types/Field.cxx:make", "libs/amqp/src/schema/described-types/field-types/CustomField.cxx:resolvedType", "libs/amqp/src/schema/described-types/field-types/RestrictedField.cxx:resolvedType"]}
{"id": "C30", "title": "Inspecting a blob leaves it where it was", "statement": "AMQPBlob::dumpContents leaves the blob's data and its read position exactly as they were, whether it returns or throws, for every decoded blob, well formed or not.", "quantifier": "every decoded data tree and every factory", "why_tests_cant": "every exception point in every malformed blob has to be covered", "anchors": ["libs/amqp/src/AMQPBlob.cxx:AMQPBlob::dumpContents", "libs/proton-wrapper/src/proton_wrapper.cxx:auto_enter", "libs/proton-wrapper/src/proton_wrapper.cxx:auto_next", "libs/proton-wrapper/src/proton_wrapper.cxx:auto_list_enter"]}
{"id": "C31", "title": "Inspection prints every value faithfully", "statement": "For a payload that conforms to its schema (primitive properties of type int, long, double, boolean, string or binary; for maps see C32), dumpContents prints each property as its name and value, nested classes in braces, lists and arrays in brackets in order, and enum constants by name, to any depth and length.", "quantifier": "every conforming value of every schema, recursive classes included", "why_tests_cant": "values nest and repeat without bound", "anchors": ["libs/amqp/src/serialiser/serialisers/reader/CompositeReader.cxx:_dump", "libs/amqp/src/serialiser/serialisers/reader/restricted-readers/ListReader.cxx", "libs/amqp/src/serialiser/serialisers/reader/restricted-readers/ArrayReader.cxx", "libs/amqp/src/serialiser/serialisers/reader/restricted-readers/EnumReader.cxx", "libs/amqp/src/serialiser/serialisers/reader/Reader.cxx"]}
{"id": "C32", "title": "Map entries keep keys and values together", "statement": "When a map is inspected each entry is printed with its own key first and its own value second, on every conforming compiler.", "quantifier": "every map value and both evaluation orders of constructor arguments", "why_tests_cant": "the argument evaluation order is unspecified, so a test only sees one compiler's choice", "anchors": ["libs/amqp/src/serialiser/serialisers/reader/restricted-readers/MapReader.cxx:dump_"]}
{"id": "C33", "title": "Null properties are printed as null", "statement": "A property whose value is null is printed as null, whatever its declared type.", "quantifier": "every declared property type and every position", "why_tests_cant": "ranges over all property types and surrounding values", "anchors": ["libs/amqp/src/serialiser/serialisers/reader/CompositeReader.cxx:dump", "libs/amqp/src/serialiser/serialisers/reader/restricted-readers/ListReader.cxx", "libs/amqp/src/serialiser/serialisers/reader/property-readers/StringPropertyReader.cxx"]}
{"id": "C34", "title": "Values of the wrong type are rejected", "statement": "If the value stored for a property is not of the declared primitive type, inspection throws rather than printing a made-up value.", "quantifier": "every primitive property type and every stored value of another type", "why_tests_cant": "ranges over all mismatching trees", "anchors": ["libs/proton-wrapper/src/proton_wrapper.cxx:readAndNext", "libs/amqp/src/serialiser/serialisers/reader/property-readers/IntPropertyReader.cxx"]}
{"id": "C35", "title": "Every supported primitive type can be inspected", "statement": "A class with a property of any primitive type that the serialiser can write can be inspected with dumpContents.", "quantifier": "every primitive type and every value of it", "why_tests_cant": "ranges over all values; some primitive types have no test blob", "anchors": ["libs/proton-wrapper/include/proton_wrapper.h:readAndNext", "libs/amqp/src/serialiser/SerialiserFactoryInternal.h:makePropertyReader", "libs/amqp/src/schema/described-types/field-types/Field.cxx:typeIsPrimitive"]}
{"id": "C36", "title": "Printed output is well bracketed", "statement": "The text printed for any inspected value has properly nested braces and brackets, provided names and leaf texts contain none.", "quantifier": "every value tree", "why_tests_cant": "values nest without bound", "anchors": ["libs/amqp/src/serialiser/serialisers/reader/Reader.cxx", "libs/amqp/src/serialiser/serialisers/reader/Reader.h"]}
{"id": "C37", "title": "Inspecting twice prints the same text", "statement": "Calling dumpContents again on the same blob gives the same text, with the same factory whatever else it has processed in between, or with any other factory that can process the blob's schema, provided a class name or fingerprint is not reused for a different definition.", "quantifier": "every blob for which the first call succeeds", "why_tests_cant": "ranges over all blobs", "anchors": ["libs/amqp/src/AMQPBlob.cxx:AMQPBlob::dumpContents"]}
{"id": "C38", "title": "The written payload is exactly the object", "statement": "Serialising an object writes one described value per object: its fingerprint followed by its properties in the order they were written, recursively, with null for null pointers, and leaves the writer ready for the next value.", "quantifier": "every object graph built from primitives, pointers, classes, vectors and maps in which no class has the name and fingerprint of a container", "why_tests_cant": "objects nest without bound", "anchors": ["libs/amqp/src/ModifiableAMQPBlobImpl.cxx:startComposite", "libs/amqp/src/ModifiableAMQPBlobImpl.cxx:endComposite", "libs/amqp/src/ModifiableAMQPBlobImpl.cxx:startRestricted", "libs/amqp/src/ModifiableAMQPBlobImpl.h:writePrimitive", "libs/amqp/include/assembler/SerialiserFactoryWriters.h"]}
{"id": "C39", "title": "The written schema describes every class that was written, once", "statement": "The schema of a serialised object has exactly one entry for each distinct class and container (name and fingerprint) that occurs in the object, and each class entry lists exactly the properties written for it.", "quantifier": "every object graph in which no class has the name and fingerprint of a container", "why_tests_cant": "objects nest without bound and share classes", "anchors": ["libs/amqp/src/ModifiableAMQPBlobImpl.cxx:startComposite", "libs/amqp/src/ModifiableAMQPBlobImpl.cxx:startRestricted", "libs/amqp/src/ModifiableAMQPBlobImpl.cxx:writeComposite", "libs/amqp/src/ModifiableAMQPBlobImpl.cxx:writeRestricted", "libs/amqp/src/ModifiableAMQPBlobImpl.cxx:toBlob"]}
{"id": "C40", "title": "Schema property order matches payload order", "statement": "The n-th property in a written class schema describes the n-th value in each written instance of that class.", "quantifier": "every class and every order in which its properties are written", "why_tests_cant": "ranges over all property orders; test classes happen to be written alphabetically", "anchors": ["libs/amqp/src/ModifiableAMQPBlobImpl.h:CompositeBlob", "libs/amqp/src/schema/descriptors/corda-descriptors/CompositeDescriptor.cxx:makeProton"]}
{"id": "C41", "title": "Producing the blob is repeatable", "statement": "toBlob does not change the writer: calling it again yields an equal blob, and writing may continue afterwards.", "quantifier": "every writer state", "why_tests_cant": "ranges over all writer states", "anchors": ["libs/amqp/src/ModifiableAMQPBlobImpl.cxx:toBlob", "libs/amqp/src/schema/descriptors/corda-descriptors/EnvelopeDescriptor.cxx:makeProton"]}
{"id": "C42", "title": "A written schema is self-contained", "statement": "Every type named by a property or element type in a written schema is primitive or has its own entry in that schema, so the blob can be inspected.", "quantifier": "every object graph, null pointers and empty containers included", "why_tests_cant": "the failing cases are particular runtime values of otherwise working classes", "anchors": ["libs/amqp/src/ModifiableAMQPBlobImpl.cxx:writeNull", "libs/amqp/src/ModifiableAMQPBlobImpl.cxx:writeComposite", "libs/amqp/include/assembler/SerialiserFactoryWriters.h"]}
{"id": "C43", "title": "Deserialising a serialised object gives the object back", "statement": "Reading back a serialised object of a class whose reader reads the same properties in the same order yields equal property values, recursively.", "quantifier": "every object built from non-null primitives (strings without NUL bytes), pointers and nested classes", "why_tests_cant": "objects nest without bound", "anchors": ["libs/amqp/include/assembler/SerialiserFactory.h:deserialise", "libs/amqp/include/assembler/SerialiserFactoryReaders.h", "libs/amqp/src/AMQPBlob.cxx:readyPayload", "libs/amqp/src/AMQPBlob.cxx:startComposite", "libs/amqp/src/AMQPBlob.cxx:endComposite"]}
{"id": "C44", "title": "Strings survive the round trip", "statement": "A string property is read back unchanged.", "quantifier": "every string, embedded NUL bytes included", "why_tests_cant": "ranges over all strings", "anchors": ["libs/amqp/src/serialiser/PrimToSerializer.h"]}
{"id": "C45", "title": "Null pointers survive the round trip", "statement": "An object with a null pointer property can be deserialised, giving a null pointer back.", "quantifier": "every class with a pointer property", "why_tests_cant": "ranges over all classes and positions of the null", "anchors": ["libs/amqp/include/assembler/ReadPrimitive.h", "libs/amqp/include/assembler/ReadNonPrimitive.h", "libs/amqp/src/ModifiableAMQPBlobImpl.cxx:writeNull"]}
{"id": "C46", "title": "Vectors survive the round trip", "statement": "An object with a vector property can be deserialised, giving back a vector with the same elements.", "quantifier": "every element type and every list of elements", "why_tests_cant": "ranges over all vectors; the defect is undefined behaviour", "anchors": ["libs/amqp/include/serializable/SerializableVector.h:deserialiseImpl", "libs/amqp/include/assembler/ReadNonPrimitive.h"]}
{"id": "C47", "title": "Deserialising as the wrong class is rejected", "statement": "Deserialising a blob as a class whose fingerprint differs from the one in the blob throws.", "quantifier": "every pair of classes", "why_tests_cant": "ranges over all pairs of classes", "anchors": ["libs/amqp/src/AMQPBlob.cxx:startComposite"]}
{"id": "C48", "title": "A blob can be deserialised repeatedly", "statement": "Deserialising the same blob a second time gives the same object.", "quantifier": "every serialised object", "why_tests_cant": "tests deserialise each blob once", "anchors": ["libs/amqp/src/AMQPBlob.cxx:readyPayload", "libs/amqp/src/AMQPBlob.cxx:endComposite"]}
{"id": "C49", "title": "What was written is what inspection prints", "statement": "Inspecting a freshly serialised object prints each property name with the value that was written for it, recursively.", "quantifier": "every object graph whose classes write their properties in alphabetical order", "why_tests_cant": "objects nest without bound", "anchors": ["libs/amqp/src/ModifiableAMQPBlobImpl.cxx:toBlob", "libs/amqp/src/AMQPBlob.cxx:dumpContents"]}
{"id": "C50", "title": "Mandatory flags reflect nullability", "statement": "In a written schema a property is flagged mandatory exactly when its value can never be null, i.e. when it is not a pointer.", "quantifier": "every property of every written class", "why_tests_cant": "ranges over all classes", "anchors": ["libs/amqp/src/ModifiableAMQPBlobImpl.h:writePrimitive", "libs/amqp/src/ModifiableAMQPBlobImpl.cxx:writeNull", "libs/amqp/src/schema/descriptors/corda-descriptors/FieldDescriptor.cxx:makeProton"]}
{"id": "C51", "title": "The raw dumper prints every payload without maps faithfully", "statement": "AMQPBlob::dumpData prints each primitive, list and described value of the payload, in order and to any depth, for every payload free of maps, and leaves the data where it was.", "quantifier": "every payload tree free of maps", "why_tests_cant": "payloads nest without bound", "anchors": ["libs/amqp/src/AMQPBlob.cxx:dumpData", "libs/amqp/src/AMQPBlob.cxx:dumpPrimitive", "libs/amqp/src/AMQPBlob.cxx:dumpList", "libs/amqp/src/AMQPBlob.cxx:dumpDescribed"]}
{"id": "C52", "title": "The raw dumper prints maps faithfully", "statement": "AMQPBlob::dumpData prints every key and value of a map in order.", "quantifier": "every payload containing a map", "why_tests_cant": "ranges over all maps", "anchors": ["libs/amqp/src/AMQPBlob.cxx:dumpMap"]}
{"id": "C53", "title": "Type checks throw exactly on a mismatch", "statement": "Each type assertion offered by the data wrapper throws exactly when the current value is not of the asserted type, each type test says yes exactly when it is, and the test for primitive values exactly for values of AMQP's primitive types.", "quantifier": "every value, every assertion and every test", "why_tests_cant": "ranges over all values", "anchors": ["libs/proton-wrapper/src/proton_wrapper.cxx:attest_is_string", "libs/proton-wrapper/src/proton_wrapper.cxx:attest_is_list", "libs/proton-wrapper/src/proton_wrapper.cxx:attest_is_int", "libs/proton-wrapper/src/proton_wrapper.cxx:is_primitive", "libs/proton-wrapper/src/proton_wrapper.cxx:is_null"]}
{"id": "C54", "title": "Reading never alters a blob's data", "statement": "Whatever is read from a blob, by deserialising, inspecting or dumping its data or schema, in any order, and whether or not it throws, the stored data is unchanged and only the read position may move.", "quantifier": "every decoded tree and every reader", "why_tests_cant": "ranges over all trees and exception points", "anchors": ["libs/amqp/src/AMQPBlob.cxx", "libs/proton-wrapper/src/proton_wrapper.cxx"]}
{"id": "C55", "title": "Schema sections are parsed without losing the read position", "statement": "Parsing an envelope, schema, class, field or container description leaves the data and the read position as they were, whether it returns or throws.", "quantifier": "every decoded tree", "why_tests_cant": "every exception point in every malformed blob has to be covered", "anchors": ["libs/amqp/src/schema/descriptors/corda-descriptors/EnvelopeDescriptor.cxx:build", "libs/amqp/src/schema/descriptors/corda-descriptors/SchemaDescriptor.cxx:build", "libs/amqp/src/schema/descriptors/corda-descriptors/CompositeDescriptor.cxx:build", "libs/amqp/src/schema/descriptors/corda-descriptors/FieldDescriptor.cxx:build", "libs/amqp/src/schema/descriptors/corda-descriptors/RestrictedDescriptor.cxx:build"]}
{"id": "C56", "title": "A factory reads every version of a class", "statement": "When two schemas describe the same class name with different properties and fingerprints, the fingerprint of each gives a reader for the properties of that version.", "quantifier": "every pair of schemas with two versions of a class, processed by one factory", "why_tests_cant": "needs two blobs from different versions of an application read by one process", "anchors": ["libs/amqp/src/assembler/CompositeFactoryInternal.cxx:process", "libs/amqp/src/assembler/CompositeFactoryInternal.cxx:computeIfAbsent"]}
{"id": "C57", "title": "A different number of properties is noticed", "statement": "Deserialising an object as a class that reads more or fewer properties than were written throws.", "quantifier": "every object and every class", "why_tests_cant": "ranges over all pairs of an object and a class", "anchors": ["libs/amqp/include/assembler/SerialiserFactoryReaders.h", "libs/amqp/src/AMQPBlob.cxx:endPrim", "libs/amqp/src/AMQPBlob.cxx:endComposite"]}
{"id": "C58", "title": "The raw schema dump shows the whole schema", "statement": "Dumping the schema of a blob in raw form prints an outline that gives, in order and with the nesting shown by indentation, every type of the schema with its name, label, provided types, fingerprint, source, constants and properties, and every property with its name, type, required types, default, label and flags.", "quantifier": "every schema section of every serialised object", "why_tests_cant": "ranges over all schemas", "anchors": ["libs/amqp/src/AMQPBlob.cxx:dumpSchema", "libs/amqp/src/schema/descriptors/corda-descriptors/EnvelopeDescriptor.cxx:readRaw", "libs/amqp/src/schema/descriptors/corda-descriptors/SchemaDescriptor.cxx:readRaw", "libs/amqp/src/schema/descriptors/corda-descriptors/CompositeDescriptor.cxx:readRaw", "libs/amqp/src/schema/descriptors/corda-descriptors/FieldDescriptor.cxx:readRaw", "libs/amqp/src/schema/descriptors/corda-descriptors/RestrictedDescriptor.cxx:readRaw", "libs/amqp/src/schema/descriptors/corda-descriptors/ObjectDescriptor.cxx:readRaw"]}
{"id": "C59", "title": "Dumping the schema leaves the blob as it was", "statement": "Dumping the schema in any form leaves the data and the read position as they were, whether it returns or throws, and always comes to an end; what is not a described element, or is described by neither a code nor a symbol, is rejected with an exception.", "quantifier": "every decoded tree and every dump target", "why_tests_cant": "every exception point in every malformed blob has to be covered", "anchors": ["libs/amqp/src/AMQPBlob.cxx:dumpSchema", "libs/amqp/src/schema/descriptors/AMQPDescriptor.cxx:readRaw", "libs/amqp/src/schema/descriptors/AMQPDescriptor.cxx:readAvro"]}
{"id": "C60", "title": "The Avro schema dump is JSON", "statement": "Dumping the schema of a blob in Avro form prints a JSON text in which each class is a record with its name, package, fingerprint and properties.", "quantifier": "every schema section", "why_tests_cant": "ranges over all schemas", "anchors": ["libs/amqp/src/AMQPBlob.cxx:dumpSchema", "libs/amqp/src/schema/descriptors/corda-descriptors/SchemaDescriptor.cxx:readAvro", "libs/amqp/src/schema/descriptors/corda-descriptors/CompositeDescriptor.cxx:readAvro", "libs/amqp/src/schema/descriptors/corda-descriptors/FieldDescriptor.cxx:readAvro", "libs/amqp/src/schema/descriptors/corda-descriptors/FieldDescriptor.cxx:inferType"]}
{"id": "C61", "title": "The schema dump copes with every schema and form", "statement": "Dumping a schema in AMQP form prints it, and in Avro form succeeds for every schema the library can read, including classes without a package (whose namespace is empty), wildcard properties without required types and schemas with several groups of types.", "quantifier": "every schema section", "why_tests_cant": "ranges over all schemas", "anchors": ["libs/amqp/src/schema/descriptors/corda-descriptors/SchemaDescriptor.cxx:readAvro", "libs/amqp/src/schema/descriptors/corda-descriptors/CompositeDescriptor.cxx:readAvro", "libs/amqp/src/schema/descriptors/corda-descriptors/FieldDescriptor.cxx:inferType"]}
{"id": "C62", "title": "Objects inspected in a row with one factory print as they do alone", "statement": "If any number of serialised objects that agree on their types are inspected one after the other with the same factory, each prints exactly as it would by itself with a new factory.", "quantifier": "every list of objects of any types and sizes, and every earlier use of the factory that does not involve those types", "why_tests_cant": "ranges over unbounded sequences of objects and factory histories", "anchors": ["libs/amqp/src/AMQPBlob.cxx:dumpContents", "libs/amqp/src/assembler/CompositeFactoryInternal.cxx:process", "libs/amqp/include/assembler/SerialiserFactoryWriters.h"]}
{"id": "C63", "title": "The tools report failure", "statement": "blob-inspector, schema-dumper and data-dumper end with the failure status and no output when called with the wrong arguments, for a file that does not exist, or for one that is not a Corda file or does not decode; when they end with the success status they have printed exactly what the library call returned for a Corda file that decodes (apart from debug lines, which the library writes to standard output).  They do not crash.", "quantifier": "every argument list and every file", "why_tests_cant": "ranges over all argument lists and all contents of files", "anchors": ["bin/blob-inspector/main.cxx:main", "bin/blob-inspector/BlobInspector.cxx:dump", "bin/schema-dumper/main.cxx:main", "bin/data-dumper/main.cxx:main"]}
{"id": "C64", "title": "From an object to the screen", "statement": "If an object is serialised and the blob saved to a file, then blob-inspector and data-dumper, given that file, print the object, and schema-dumper prints its schema.", "quantifier": "every object of any types and sizes", "why_tests_cant": "ranges over all objects and composes the writer, the file format, the decoder and the dumpers", "anchors": ["bin/blob-inspector/main.cxx:main", "bin/schema-dumper/main.cxx:main", "bin/data-dumper/main.cxx:main", "libs/amqp/src/CordaBytes.cxx:toFile"]}
{"id": "C65", "title": "A blob can be saved after it has been read", "statement": "Whatever sequence of inspections, dumps and reads has been performed on a blob, saving it and opening the file gives the blob as it was at first.", "quantifier": "every blob and every sequence of operations, failed ones included", "why_tests_cant": "ranges over all sequences of operations", "anchors": ["libs/amqp/src/CordaBytes.cxx:toFile", "libs/amqp/src/AMQPBlob.cxx:dumpContents", "libs/amqp/src/AMQPBlob.cxx:dumpData", "libs/amqp/src/AMQPBlob.cxx:dumpSchema"]}
{"id": "C66", "title": "Parsing a schema makes nothing up", "statement": "Whatever element parsing a part of a schema section returns, each name, type, label, flag, fingerprint, constant, property and type in it is what the section holds in that place, nothing in a list is left out or added, the kind of each property and container is the one that goes with its type, source and constants, and the data is left where it was; sections with missing or surplus parts are rejected.", "quantifier": "every tree of data, well formed or not, and every position in it", "why_tests_cant": "ranges over all data, malformed sections included", "anchors": ["libs/amqp/src/schema/descriptors/AMQPDescriptors.h:dispatchDescribed", "libs/amqp/src/schema/descriptors/corda-descriptors/FieldDescriptor.cxx:build", "libs/amqp/src/schema/descriptors/corda-descriptors/CompositeDescriptor.cxx:build", "libs/amqp/src/schema/descriptors/corda-descriptors/RestrictedDescriptor.cxx:build", "libs/amqp/src/schema/descriptors/corda-descriptors/SchemaDescriptor.cxx:build", "libs/amqp/src/schema/descriptors/corda-descriptors/EnvelopeDescriptor.cxx:build"]}
{"id": "C67", "title": "What is in binary values is not shown", "statement": "If two blobs differ only in the bytes of their binary values, and not in how many there are, then inspecting them gives the same text or the same exception, and so do the dumps of the data and of the schema and the three command-line tools; the dumps do not even depend on how many bytes there are.", "quantifier": "every pair of data, well formed or not, every factory and every installed serialiser that is itself discreet", "why_tests_cant": "a property of pairs of executions over all data", "anchors": ["libs/amqp/src/AMQPBlob.cxx:dumpContents", "libs/amqp/src/AMQPBlob.cxx:dumpData", "libs/amqp/src/AMQPBlob.cxx:dumpSchema", "libs/amqp/src/serialiser/serialisers/reader/property-readers/BinaryPropertyReader.cxx:dump", "libs/corda-custom-types/src/java/security/PublicKeySerialiser.cxx:dump"]}
{"id": "C68", "title": "What is shown is in the blob", "statement": "Whatever text dumpContents returns, for any blob, is the rendering of the blob's payload: every name in it is a property of a class of the blob's schema, every value is read from that place in the payload, and nothing in a list or map is left out or added; and it returns a text exactly if the payload can be rendered. A payload that is not a value of its type is rejected.", "quantifier": "every blob whose schema is regular, every payload, well formed or not, and every history of the factory", "why_tests_cant": "ranges over all payloads, malformed ones included", "anchors": ["libs/amqp/src/AMQPBlob.cxx:dumpContents", "libs/amqp/src/serialiser/serialisers/reader/CompositeReader.cxx:_dump", "libs/amqp/src/serialiser/serialisers/reader/restricted-readers/ListReader.cxx", "libs/amqp/src/serialiser/serialisers/reader/restricted-readers/MapReader.cxx", "libs/amqp/src/serialiser/serialisers/reader/restricted-readers/EnumReader.cxx", "libs/amqp/src/serialiser/serialisers/reader/property-readers/IntPropertyReader.cxx"]}
{"id": "C69", "title": "Installed serialisers decide what is shown of their types", "statement": "Once a serialiser is installed for a type, inspection shows a value of that type exactly if the serialiser does, and as it does, wherever the value is: as a property or inside a collection. With the serialiser for public keys, a key is shown as a fixed text and nothing of it appears.", "quantifier": "every history of the factory, every schema consistent with it, every payload and every installed serialiser", "why_tests_cant": "ranges over histories, schemas and payloads", "anchors": ["libs/amqp/src/assembler/CompositeFactoryInternal.cxx:installCustomSerialiser", "libs/corda-custom-types/src/java/security/PublicKeySerialiser.cxx:dump"]}
{"id": "C70", "title": "Deserialising any blob gives what it holds or throws", "statement": "For any blob, deserialising it as a type returns an object exactly if the payload has, in each place the type's members are read from, a value of the member's kind, and the object returned is made of exactly those values; if it does not, an exception is thrown.", "quantifier": "every blob, well formed or not, and every family of types", "why_tests_cant": "ranges over all data and all types, malformed data included", "anchors": ["libs/amqp/include/assembler/SerialiserFactory.h:deserialise", "libs/amqp/include/assembler/ReadPrimitive.h:read", "libs/amqp/include/assembler/ReadNonPrimitive.h:read", "libs/amqp/src/AMQPBlob.cxx:readyPayload", "libs/amqp/src/AMQPBlob.cxx:startComposite"]}
{"id": "C71", "title": "An object survives being read and a file", "statement": "An object that is serialised, then inspected, dumped or read any number of times, then saved and opened again, deserialises to the same object.", "quantifier": "every object of any size built from non-null primitives (strings without NUL bytes), pointers and nested classes, and every sequence of operations in between", "why_tests_cant": "composes the writer, all the readers, the file format and the deserialiser over all objects and sequences", "anchors": ["libs/amqp/src/CordaBytes.cxx:toFile", "libs/amqp/src/CordaBytes.cxx:CordaBytes", "libs/proton-wrapper/src/proton_wrapper.cxx", "libs/amqp/src/AMQPBlob.cxx:dumpContents"]}
{"id": "C72", "title": "What the raw dump shows of any data", "statement": "For any data, dumpData returns a text exactly if the envelope holds a described payload that can be rendered part by part: single values as themselves, lists and maps in brackets, described values after their fingerprints, to any depth. If the data is described by something else than an envelope the process aborts, if it is not described at all the behaviour is undefined, and otherwise an exception is thrown.", "quantifier": "every tree of data, well formed or not", "why_tests_cant": "ranges over all data, malformed data included", "anchors": ["libs/amqp/src/AMQPBlob.cxx:dumpData", "libs/amqp/src/AMQPBlob.cxx:dumpPrimitive", "libs/amqp/src/AMQPBlob.cxx:dumpList", "libs/amqp/src/AMQPBlob.cxx:dumpMap", "libs/amqp/src/AMQPBlob.cxx:dumpDescribed"]}
{"id": "C73", "title": "Every object can be serialised", "statement": "Serialising any object built from the property types the library supports (the primitives and pointers to them, classes and pointers to them, vectors and maps) gives a blob and has no undefined behaviour.", "quantifier": "every object of any types and sizes", "why_tests_cant": "ranges over all objects, to any depth", "anchors": ["libs/amqp/src/ModifiableAMQPBlobImpl.h:writePrimitive", "libs/amqp/src/ModifiableAMQPBlobImpl.h:writePrimitiveSingle", "libs/proton-wrapper/src/proton_wrapper.cxx", "libs/corda-utils/include/debug.h:DBG"]}
{"id": "C74", "title": "A serialiser reads the value at hand, and writes the one it is given", "statement": "The serialiser a factory returns for a type (byType(type)) reads, with read(data), the value of that type at the current position of the data and, with readString(data), its text; both move to the next value, and throw if there is no value of that type. write(value, data) adds the value to the data.", "quantifier": "every history of the factory, every type it has a serialiser for, every data and position", "why_tests_cant": "ranges over all data, positions and factory histories", "anchors": ["libs/amqp/include/serialiser/ISerialiser.h:ISerialiser", "libs/amqp/src/serialiser/serialisers/reader/property-readers", "libs/amqp/src/serialiser/serialisers/reader/CompositeReader.cxx:CompositeReader::read", "libs/amqp/src/serialiser/serialisers/reader/restricted-readers/RestrictedReader.h:RestrictedReader", "libs/amqp/src/serialiser/serialisers/writer/Writer.cxx:Writer::write"]}
{"id": "C75", "title": "The schema of a blob lists the types that occur in the object", "statement": "The schema that an object is serialised with has one entry for each class, vector and map type of which a value occurs in the object, in alphabetical order of their names, and none for others. The entry of a class lists its properties with their declared types as its serialiser declares them, whichever objects of it are written.", "quantifier": "every program (set of classes, vectors and maps with distinct names and fingerprints, whose classes write their properties in alphabetical order) and every object of it, of any size", "why_tests_cant": "ranges over all programs and all their objects", "anchors": ["libs/amqp/src/ModifiableAMQPBlobImpl.h:toBlob", "libs/proton-wrapper/src/proton_wrapper.cxx", "libs/amqp/include/serializable/SerializableVector.h", "libs/amqp/include/serializable/SerializableMap.h", "libs/amqp/include/serializable/Serializable.h:Serializable"]}
{"id": "C76", "title": "Whether an object can be inspected depends only on its types", "statement": "All objects of a program in which the same types occur are serialised with the same schema, and inspecting them with factories in the same state either shows each of them as it is or fails for each of them in the same way.", "quantifier": "every program as in C75 without float, char and containers of bool, every two objects of it in which the same types occur (no null pointer to a primitive, and to a class only if one of its objects is there), every state of a factory that has not seen the types", "why_tests_cant": "a property of pairs of objects over all programs", "anchors": ["libs/amqp/src/AMQPBlob.cxx:dumpContents", "libs/amqp/src/ModifiableAMQPBlobImpl.h:toBlob", "libs/amqp/src/assembler/CompositeFactoryInternal.cxx:process"]}
{"id": "C77", "title": "Every object of a program can be inspected", "statement": "An object built from the primitive types, classes, pointers, vectors and maps that the library can serialise is shown by inspection as it is.", "quantifier": "every program and every object of it, of any size", "why_tests_cant": "ranges over all programs and all their objects", "anchors": ["libs/amqp/src/AMQPBlob.cxx:dumpContents", "libs/amqp/src/serialiser/PrimToSerializer.h:PrimToSerialiser", "libs/amqp/src/assembler/CompositeFactoryInternal.cxx:process"]}
{"id": "C78", "title": "The example writers write objects that can be inspected", "statement": "For all arguments that the objects in bin/writer-tests are constructed with, inspecting what they serialise to shows their members by name, in order and with their values.", "quantifier": "all integers, strings, doubles, lists and maps passed to the constructors, of any size, and any chain of recursive objects", "why_tests_cant": "the tests write one object each and nothing checks the result; the claim is for all arguments", "anchors": ["bin/writer-tests/writer-test-01/SerialiseMe.cxx", "bin/writer-tests/writer-test-05/SerialiseMe.cxx", "bin/writer-tests/writer-test-08-composite-list/SerialiseMe.cxx", "bin/writer-tests/writer-test-12-map-int-list-composite/SerialiseMe.cxx", "libs/amqp/src/AMQPBlob.cxx:dumpContents"]}
{"id": "C79", "title": "A factory may be used for other things first", "statement": "What dumpContents gives for a blob - the text, or the exception - does not depend on what else the factory has been used for: which schemas of other types it has processed, which serialisers for other types were installed, and in which order.", "quantifier": "every two histories of factories that were not told about the types of the blob, every blob whose types have distinct names that are not those of primitives, and every program with its objects", "why_tests_cant": "a property of pairs of histories, over all blobs", "anchors": ["libs/amqp/src/AMQPBlob.cxx:dumpContents", "libs/amqp/src/assembler/CompositeFactoryInternal.cxx:process", "libs/amqp/src/assembler/CompositeFactoryInternal.cxx:installCustomSerialiser"]}
{"id": "C80", "title": "The blob-inspector shows the objects that programs write", "statement": "If inspecting an object with a new factory gives a text, then the blob-inspector prints that text for the file the object was saved in, and reports success; if inspection fails, the blob-inspector reports failure.", "quantifier": "every program, every object of it and every file it is saved in; in particular all objects of bin/writer-tests with any arguments", "why_tests_cant": "composes serialising, the file format and inspection over all objects", "anchors": ["bin/blob-inspector/main.cxx:main", "libs/amqp/src/AMQPBlob.cxx:dumpContents", "bin/writer-tests/writer-test-01/main.cxx:main", "bin/writer-tests/writer-test-04/main.cxx:main"]}
{"id": "C81", "title": "The example reader prints what is in the file, or fails", "statement": "The example reader prints two integers and its fingerprint exactly if its argument is a Corda stream whose payload is an object that starts with two integers, and prints those; given a file written by the first example writer it prints the values of that object. In all other cases it does not report success, and its behaviour is never undefined for a complete stream.", "quantifier": "every file of at least eight bytes, every list of arguments, every value of the object", "why_tests_cant": "ranges over all files; the program is never run by the tests", "anchors": ["bin/reader-tests/reader-test-01/main.cxx:main", "bin/reader-tests/reader-test-01/DeSerialiseMe.cxx:DeSerialiseMe", "libs/amqp/include/assembler/SerialiserFactory.h:deserialise"]}
{"id": "C82", "title": "The example programs that write and read back print the values they wrote", "statement": "Each program in bin/reader-tests that serialises an object, saves it and deserialises the blob prints the values that the object was made with and saves a file from which the blob-inspector shows the same values.", "quantifier": "all integers, longs, strings, doubles, floats, booleans and lists of integers that the objects can be made with", "why_tests_cant": "the programs use one set of values each and nothing checks what they print", "anchors": ["bin/reader-tests/reader-test-02-nested-composite/main.cxx:main", "bin/reader-tests/reader-test-03-composite-ptr/main.cxx:main", "bin/reader-tests/reader-test-04-many-prims/main.cxx:main", "bin/reader-tests/reader-test-05-many-diff-prims/main.cxx:main", "bin/reader-tests/reader-test-06-int-list/main.cxx:main"]}
{"id": "C83", "title": "When a schema can be processed", "statement": "Processing a schema succeeds exactly if each type it describes comes, in the order of the schema, after the types it names (or these have a reader already) and none of them is one that an earlier schema named without describing it. It throws a std::runtime_error exactly if a type that lacks another comes first; and then all types described before it have readers, and only the one missing type is affected in later uses.", "quantifier": "every history of a factory, failed operations included, and every schema", "why_tests_cant": "an equivalence over all histories and all schemas, and both directions are needed", "anchors": ["libs/amqp/src/assembler/CompositeFactoryInternal.cxx:process", "libs/amqp/src/assembler/CompositeFactoryInternal.cxx:computeIfAbsent", "libs/amqp/src/assembler/CompositeFactoryInternal.cxx:fetchReaderForRestricted", "libs/amqp/src/assembler/CompositeFactoryInternal.cxx:processComposite"]}
{"id": "C84", "title": "Which objects can be inspected", "statement": "An object that was serialised is shown by dumpContents exactly if the types in its schema come, in the order in which the schema is read back, after the types they name; otherwise, with a factory for which nothing has failed, a std::runtime_error is thrown.", "quantifier": "every object whose parts all have a text (no null pointers to primitives, no float or char), every history of a factory that does not involve the types of the object, every program", "why_tests_cant": "an equivalence over all objects and programs", "anchors": ["libs/amqp/src/AMQPBlob.cxx:dumpContents", "libs/amqp/src/assembler/CompositeFactoryInternal.cxx:process", "libs/amqp/src/schema/OrderedTypeNotations.h:insert"]}
{"id": "C85", "title": "The printed form of a schema", "statement": "Streaming a schema prints one line for each type, in the order of the schema, with its name and kind; streaming the ordered types of a schema prints the levels, numbered from one, with the names in each, so that two orders that print the same are the same; streaming a type prints its name, label, descriptor and its properties, or its kind and the interfaces provided, and types that differ in any of these print differently. (Everything about a type should be visible; names required by a property, its other attributes and the choices of an enum are not.)", "quantifier": "every schema, every list of levels and every type, as long as no name contains a line break, and no property or its type a colon", "why_tests_cant": "the unit tests compare types by this text, so what it can tell apart for all types decides what those tests mean", "anchors": ["libs/amqp/src/schema/described-types/Schema.cxx:operator <<", "libs/amqp/src/schema/OrderedTypeNotations.h:operator <<", "libs/amqp/src/schema/described-types/Composite.cxx:operator <<", "libs/amqp/src/schema/restricted-types/Restricted.cxx:operator <<", "libs/amqp/src/schema/described-types/field-types/Field.cxx:operator <<", "libs/amqp/src/schema/AMQPTypeNotation.cxx:operator <<", "libs/amqp/src/test/Map.cxx:TEST"]}
{"id": "C86", "title": "Interrupted saves are noticed", "statement": "If a program or the machine stops while a blob is being saved, so that only the first bytes of the file were written, then none of the tools shows anything for that file or reports success. (They should report failure; where the behaviour is undefined, or an assertion fails, is stated.)", "quantifier": "every blob, every crash point (every proper prefix of the file), all three tools", "why_tests_cant": "quantifies over crash points and over all blobs", "anchors": ["libs/amqp/src/CordaBytes.cxx:CordaBytes", "libs/amqp/src/AMQPBlob.cxx:AMQPBlob", "libs/amqp/include/AMQPBlob.h", "bin/blob-inspector/main.cxx:main", "bin/schema-dumper/main.cxx:main", "bin/data-dumper/main.cxx:main"]}
{"id": "C87", "title": "Exceptions thrown while an object is serialised", "statement": "If a serialiseImpl throws, the exception reaches the caller of serialise and no blob results, unless it is caught; every object that was begun is closed, so if it is caught what is written afterwards is written where it would have been, and the blob is the one for the object as far as it was written. (Such a blob should be inspected correctly or rejected.)", "quantifier": "every object of any depth, every place at which an exception may be thrown and every place at which it may be caught, every use of the library before", "why_tests_cant": "quantifies over all objects and all placements of throwing and catching", "anchors": ["libs/amqp/include/serializable/Serializable.h:serialise", "libs/amqp/src/serializable/Serializable.cxx", "libs/amqp/include/serializable/SerializableVector.h", "libs/amqp/include/serializable/SerializableMap.h", "libs/amqp/include/assembler/SerialiserFactory.h"]}
{"id": "C88", "title": "The bytes of a saved object are AMQP 1.0, and only that object", "statement": "The blob of every object whose values are in the range of their C++ types has an AMQP 1.0 encoding, unless it would reach four gigabytes; decoding any AMQP 1.0 encoding of it, whichever of the standard's forms were chosen, gives the same blob; no other value has the same bytes, and no beginning of them is an encoded value. So what the tools show of a saved object does not depend on anything about the encoder except that it follows the standard.", "quantifier": "every value and every object, all the forms AMQP 1.0 has for each value (arrays apart), every cut", "why_tests_cant": "quantifies over all objects and over all encoders that follow the standard", "anchors": ["libs/amqp/src/CordaBytes.cxx:CordaBytes", "libs/amqp/src/AMQPBlob.cxx:AMQPBlob", "bin/blob-inspector/main.cxx:main", "bin/data-dumper/main.cxx:main", "bin/writer-tests/writer-test-01/main.cxx:main"]}
{"id": "C89", "title": "What is allocated is released", "statement": "When the objects made for saving or reading a blob have gone, the memory that they allocated has been released, once, whether the operation returned or threw, so that a program may save and read any number of blobs.", "quantifier": "every object, every file, everything that may be done with a blob, every exception, any number of repetitions", "why_tests_cant": "quantifies over all objects and executions, exceptional ones included; the tests are short-lived and do not look at memory", "anchors": ["libs/amqp/include/CordaBytes.h:~CordaBytes", "libs/amqp/src/CordaBytes.cxx:CordaBytes", "libs/amqp/include/AMQPBlob.h", "libs/amqp/src/ModifiableAMQPBlobImpl.cxx:toBlob", "libs/amqp/src/ModifiableAMQPBlobImpl.h", "libs/amqp/src/schema/descriptors/corda-descriptors/FieldDescriptor.cxx:makeProton"]}
{"id": "C90", "title": "The text of a double", "statement": "The text shown for a double (or a float) is a number with six places that differs from the value by half a millionth at most; it is exact if the value has no more than six places, whole numbers among them; it has a minus exactly if the sign bit is set; of two such numbers that are equally near the even one is taken; texts are in the order of the values; values more than a millionth apart have different texts; infinities and what is not a number are shown as such. (Different values should have different texts; values up to half a millionth all look like zero.)", "quantifier": "every double and every float, subnormal numbers, zeros, infinities and NaNs included", "why_tests_cant": "quantifies over all bit patterns", "anchors": ["libs/amqp/src/serialiser/serialisers/reader/property-readers/DoublePropertyReader.cxx:readString", "libs/amqp/src/AMQPBlob.cxx:dumpData"]}
{"id": "C91", "title": "Classes that react to what they read", "statement": "The deserialiseImpl of a class may choose what to read next by what it has read, may throw, and may catch what reading throws. What it gets is the current property, and then the next one is current; the result, or the exception that is not caught, is what the caller of deserialise gets. After an exception that is caught the next property is current, whatever it was that threw.", "quantifier": "every class program of any length (branching on values, throwing, catching at any place), nested to any depth, every blob whose described values are lists; every object without maps that the library serialises", "why_tests_cant": "quantifies over all user programs, all places where exceptions are thrown and caught, and all payloads", "anchors": ["libs/amqp/include/assembler/SerialiserFactory.h:read", "libs/amqp/include/assembler/SerialiserFactoryReaders.h:PropertyReader", "libs/amqp/include/assembler/ReadNonPrimitive.h:ReadNonPrim", "libs/amqp/src/AMQPBlob.cxx:startComposite", "libs/amqp/src/AMQPBlob.cxx:endComposite"]}
{"id": "C92", "title": "What parsing a schema section does with any tree", "statement": "What the schema parser does with a received element is a function of the element alone: its parts are looked at in order, the first that is not as expected decides, and the result is the parsed element, an exception (std::runtime_error, or std::out_of_range for a map's name) or undefined behaviour; the position in the blob is left as it was. If every element is of a known kind and in its place, names are long enough to tell if they are an array's, and properties of any type say what they require, then behaviour is always defined.", "quantifier": "every tree, well formed or not, of any size and depth, at any position of any blob", "why_tests_cant": "quantifies over all trees", "anchors": ["libs/amqp/src/schema/descriptors/corda-descriptors/*.cxx:build", "libs/amqp/src/schema/descriptors/AMQPDescriptors.h:dispatchDescribed", "libs/amqp/src/schema/field-types/Field.cxx:make", "libs/amqp/src/schema/described-types/Restricted.cxx:make", "libs/amqp/src/schema/OrderedTypeNotations.h:insert"]}
{"id": "C93", "title": "How inspecting a blob ends, for any blob", "statement": "What inspecting a decoded blob does is a function of the tree and of the installed serialisers alone: which text is shown, which exception is thrown, or that the program aborts. Parts are looked at in order and the first that is not as expected decides. The exceptions are std::runtime_error, std::out_of_range and std::bad_cast (and what user-written serialisers throw). An assertion fails only if no type in the schema has the fingerprint of the payload, if the envelope does not have three parts, or if an object has the fingerprint of a class with another number of properties. If the schema section is in order (C92), behaviour is defined whatever the payload is. After a return or an exception the blob can be inspected again. The blob inspector prints the text, or is ended by the exception or the failed assertion.", "quantifier": "every decoded tree whose types are not named like primitives, well formed or not, of any size and depth; any set of installed serialisers", "why_tests_cant": "quantifies over all blobs, corrupt ones included", "anchors": ["libs/amqp/src/AMQPBlob.cxx:dumpContents", "libs/amqp/src/assembler/CompositeFactoryInternal.cxx:process", "libs/amqp/src/serialiser/serialisers/reader/CompositeReader.cxx:dump", "bin/blob-inspector/main.cxx:main"]}
{"id": "C94", "title": "How inspecting any sequence of blobs with one factory ends", "statement": "When blobs are inspected one after another with the same factory, and serialisers installed in between, how each inspection ends (text, exception, abort, undefined behaviour) is a function of its tree and of four things the factory remembers: the installed serialisers, the first notation learnt for each type name, the type last seen with each fingerprint, and the types that were needed and not there. Blobs whose schemas are complete and do not give different meanings to one name are each shown exactly as with a new factory, in any order and any number of times.", "quantifier": "every finite sequence of inspections and installations (serialisers for types not known yet), every decoded tree whose types are not named like primitives, successful and failing inspections alike", "why_tests_cant": "quantifies over all histories of the factory and all blobs", "anchors": ["libs/amqp/src/AMQPBlob.cxx:dumpContents", "libs/amqp/src/assembler/CompositeFactoryInternal.cxx:process", "libs/amqp/src/assembler/CompositeFactoryInternal.cxx:installCustomSerialiser", "libs/amqp/src/assembler/CompositeFactoryInternal.cxx:byDescriptor"]}
{"id": "C95", "title": "How dumping the schema of any blob ends", "statement": "What dumping the schema does, in each of its forms, is a function of the decoded tree alone: the whole text, which exception is thrown, or that the program aborts; after a return or an exception the blob can be dumped again. The raw form never fails an assertion and throws only std::runtime_error. The Avro form fails an assertion only where a schema section does not have exactly one group of types, and throws besides only std::out_of_range. Behaviour is defined where the codes of elements are known, there is an element wherever one is expected and, for the Avro form, the type names of properties are clear. schema-dumper prints the text and succeeds, reports a std::runtime_error and fails, or is ended by any other exception or the failed assertion.", "quantifier": "every decoded tree, well formed or not, of any size and depth; the raw, AMQP and Avro forms; any data around the tree", "why_tests_cant": "quantifies over all blobs, corrupt ones included", "anchors": ["libs/amqp/src/AMQPBlob.cxx:dumpSchema", "libs/amqp/src/schema/descriptors/AMQPDescriptor.cxx:readRaw", "libs/amqp/src/schema/descriptors/AMQPDescriptor.cxx:readAvro", "bin/schema-dumper/main.cxx:main"]}
{"id": "C96", "title": "What data-dumper writes to standard output", "statement": "What dumping the data of a blob writes to standard output on the way (the debug lines, which are compiled in, and the word STRING), how it ends and what it returns is a function of the decoded tree alone. data-dumper writes whole lines of debug output, then the result on its own line, and succeeds; a script that keeps only what is after those lines gets the result. A user who redirects standard output to a file relies on the result being all there is in it, and on a failing run writing nothing there: both are false.", "quantifier": "every decoded tree, well formed or not, of any size and depth; any files and arguments; any text already written", "why_tests_cant": "quantifies over all blobs, corrupt ones included", "anchors": ["libs/amqp/src/AMQPBlob.cxx:dumpData", "libs/corda-utils/include/debug.h:DBG", "libs/proton-wrapper/src/proton_wrapper.cxx:attest_is_list", "bin/data-dumper/main.cxx:main"]}
{"id": "C97", "title": "What schema-dumper writes to standard output", "statement": "What dumping the schema of a blob writes to standard output on the way, how it ends and what it returns is a function of the decoded tree alone, in the raw and in the Avro form. schema-dumper writes whole lines of debug output, then the result on its own line, and succeeds. A user who redirects the Avro form to a file relies on getting a JSON text, and for both forms on the result being all there is: this is false, for the Avro form of every schema.", "quantifier": "every decoded tree, well formed or not, of any size and depth; both forms; any files and arguments; any text already written", "why_tests_cant": "quantifies over all blobs, corrupt ones included", "anchors": ["libs/amqp/src/AMQPBlob.cxx:dumpSchema", "libs/corda-utils/include/debug.h:DBG", "libs/amqp/src/schema/descriptors/AMQPDescriptor.cxx:readAvro", "libs/proton-wrapper/src/proton_wrapper.cxx:attest_is_list", "bin/schema-dumper/main.cxx:main"]}
{"id": "C98", "title": "Different objects show different texts", "statement": "The texts that inspection gives of two objects of the same class are the same only if the objects differ in nothing but the content of binary values of the same size, digits of doubles that are not shown, and the ordinals of enum constants; and such objects do show the same text. A user who compares inspected texts to see whether two objects are equal, or parses the text, relies on it.", "quantifier": "every two objects of a class, of any size and depth, in blobs with the same schema; two factories of any history; any two blobs around them", "why_tests_cant": "quantifies over all pairs of objects", "anchors": ["libs/amqp/src/AMQPBlob.cxx:dumpContents", "libs/amqp/src/serialiser/serialisers/reader/CompositeReader.cxx:dump", "libs/amqp/src/serialiser/serialisers/reader/restricted-readers/MapReader.cxx:dump_", "libs/amqp/src/serialiser/serialisers/reader/property-readers/StringPropertyReader.cxx:dump"]}
{"id": "C99", "title": "Memory taken for reading is given back", "statement": "Inspecting or deserialising gives back all memory it took with new, other than what is behind the pointers of the object it returns, whether it returns or throws, so that a program may read any number of blobs. This holds when no binary values are involved, and for classes without pointers; otherwise exactly the binary values of the object, on each inspection, and exactly the pointers read before the exception are lost.", "quantifier": "every blob, well formed or not, every factory history and class; every object of any size and depth; any number of inspections", "why_tests_cant": "quantifies over all blobs and failures; lost memory is not an observable result of a test", "anchors": ["libs/proton-wrapper/src/proton_wrapper.cxx:readAndNext", "libs/amqp/src/serialiser/serialisers/reader/property-readers/BinaryPropertyReader.cxx:dump", "libs/amqp/src/AMQPBlob.cxx:dumpContents"]}
{"id": "C100", "title": "Different objects are saved as different files", "statement": "Two objects are saved as the same blob, and as the same file, exactly if they are the same: the same classes and the same values under the same names. A program that compares or deduplicates saved blobs, or uses a digest of one as the identity of the object, relies on it. It holds among the objects of one program, and fails for two versions of a class that write their properties in different orders under one fingerprint.", "quantifier": "every two objects of any types of a program, of any size and depth; every AMQP 1.0 encoder", "why_tests_cant": "quantifies over all pairs of objects", "anchors": ["libs/amqp/src/ModifiableAMQPBlobImpl.cxx:toBlob", "libs/amqp/include/assembler/SerialiserFactoryWriters.h:write", "libs/amqp/src/CordaBytes.cxx:toFile"]}
{"id": "C101", "title": "What serialising writes to standard output", "statement": "Serialising an object writes nothing to the standard output of the program, in particular nothing of what is in the object; a program that writes its own results there, or that handles confidential values, relies on it. This is false for every object: debug lines are compiled in, and they contain every primitive value that the object holds by value, at any depth and in order. What is written is given to the letter, as a function of the object, its types and the platform. It does not affect the blob, and values that the object only points to are not in it.", "quantifier": "every object of every program, of any size and depth; any writer, used or new; any platform (paths, addresses, typeid names, number formats); any text already written", "why_tests_cant": "quantifies over all objects and programs; no test looks at standard output", "anchors": ["libs/corda-utils/include/debug.h:DBG", "libs/corda-utils/include/types.h:javaTypeName", "libs/amqp/include/assembler/SerialiserFactoryWriters.h:write", "libs/amqp/src/ModifiableAMQPBlobImpl.h:writePrimitive", "libs/amqp/src/ModifiableAMQPBlobImpl.cxx:toBlob"]}
{"id": "C102", "title": "What deserialising writes to standard output", "statement": "Deserialising a blob writes nothing to the standard output of the program, in particular nothing of what is in the blob; a program that writes its own results there, or that handles confidential values, relies on it. This is false whenever an object is returned: debug lines are compiled in, and they contain every primitive value of the object, at any depth, also behind pointers, in order, and the fingerprint letter by letter. What is written is given to the letter for every blob, also if an exception is thrown. It does not affect the object, and nothing of the schema or the transforms is in it.", "quantifier": "every blob, well formed or not; every class and every type asked for; any platform (paths, names of types, number formats); any text already written", "why_tests_cant": "quantifies over all blobs and classes; no test looks at standard output", "anchors": ["libs/corda-utils/include/debug.h:DBG", "libs/amqp/src/serialiser/PrimToSerializer.h:get", "libs/amqp/include/assembler/SerialiserFactoryReaders.h:read", "libs/amqp/src/AMQPBlob.cxx:readyPayload", "libs/amqp/include/assembler/SerialiserFactory.h:deserialise"]}
{"id": "C103", "title": "blob-inspector and data-dumper print JSON", "statement": "The README promises that blob-inspector and data-dumper print a JSON representation of the blob, and the code says that it wraps its output to make sure that it is valid JSON. Users rely on it to process the output with JSON tools. This is false: nothing that blob-inspector ever prints is JSON, and what data-dumper prints is JSON only if the fingerprint of the payload begins like a JSON array. The part that blob-inspector prints for the payload itself is JSON, and the right JSON, exactly if there is no property in it, no null, binary value or enum constant, and all map keys are strings.", "quantifier": "every file and every blob, of any size and depth; any number format, order of evaluation and installed serialisers; for the exact part, all values whose strings need no escaping", "why_tests_cant": "quantifies over all blobs; no test parses the output as JSON", "anchors": ["README.md", "libs/amqp/src/AMQPBlob.cxx:dumpContents", "libs/amqp/src/AMQPBlob.cxx:dumpData", "libs/amqp/src/serialiser/serialisers/reader/Reader.cxx", "bin/blob-inspector/main.cxx", "bin/data-dumper/main.cxx"]}
{"id": "C104", "title": "Any text is taken apart as a type name in one defined way", "statement": "For every text whatsoever, well formed or not: as a list type it yields what stands before the first opening bracket and what follows it up to the last character; as a map type it yields what stands before the first opening bracket and what stands on either side of the first comma outside nested brackets, without leading blanks, and throws std::out_of_range exactly if there is no such comma; as an array type it yields what stands before the first square bracket; boxed names become primitive ones. The types mentioned in a name are those found by taking its parts apart again, and normalising a name replaces, one boxed name after the other and from left to right, every text that resembles it.", "quantifier": "every text", "why_tests_cant": "the texts come from the sender of a blob, so that every text can occur, at any nesting and with brackets that do not match", "anchors": ["libs/amqp/src/schema/SchemaUtils.cxx:listType", "libs/amqp/src/schema/SchemaUtils.cxx:mapType", "libs/amqp/src/schema/SchemaUtils.cxx:isContainer", "libs/amqp/src/schema/SchemaUtils.cxx:nestedGenericTypes", "libs/amqp/src/schema/restricted-types/Array.cxx:arrayType", "libs/amqp/src/schema/descriptors/corda-descriptors/RestrictedDescriptor.cxx:makePrim"]}
{"id": "C105", "title": "What showing a payload writes to standard output", "statement": "Inspecting a blob gives away nothing of its payload on standard output: the text is returned to the caller, who decides where it goes. This is false whenever a text is returned and an object in the payload, inside objects and lists at any depth, has a property that is an integer: a debug line says which integer it is. What is written while the payload is shown is given to the letter for every blob, also if an exception is thrown: lines for objects and each of their properties, for maps, integers and texts. It does not affect what is returned. Texts, long and floating-point numbers, truth values and bytes are not given away: payloads that differ in nothing else yield the same lines and the same ending.", "quantifier": "every blob, well formed or not; any installed serialisers, platform, number format and order of evaluation; any text already written, also by reading the schema", "why_tests_cant": "quantifies over all blobs and over pairs of payloads; no test looks at standard output", "anchors": ["libs/corda-utils/include/debug.h:DBG", "libs/amqp/src/AMQPBlob.cxx:dumpContents", "libs/amqp/src/serialiser/serialisers/reader/CompositeReader.cxx:_dump", "libs/amqp/src/serialiser/serialisers/reader/property-readers/IntPropertyReader.cxx:dump", "libs/amqp/src/serialiser/serialisers/reader/restricted-readers/MapReader.cxx:dump"]}
{"id": "C106", "title": "All that inspecting a blob writes to standard output", "statement": "For every blob, what inspecting it writes to standard output from beginning to end is a function of the decoded tree, also if an exception is thrown. As soon as the envelope has been read, whatever becomes of the payload, the names of all types have been listed in their final order and the fingerprint of every type and the name and type of every property of every class have been written. Of the payload, texts, long and floating-point numbers, truth values and bytes are not given away: blobs that differ in nothing else yield the same output to the letter and the same ending. Writing does not affect what is returned.", "quantifier": "every blob, well formed or not; any installed serialisers, platform, number format and order of evaluation; any text already written", "why_tests_cant": "quantifies over all blobs and over pairs of payloads; no test looks at standard output", "anchors": ["libs/corda-utils/include/debug.h:DBG", "libs/amqp/src/AMQPBlob.cxx:dumpContents", "libs/amqp/src/schema/descriptors/corda-descriptors/EnvelopeDescriptor.cxx:build", "libs/amqp/src/schema/descriptors/corda-descriptors/SchemaDescriptor.cxx:build", "libs/amqp/src/schema/descriptors/corda-descriptors/CompositeDescriptor.cxx:build", "libs/amqp/src/schema/descriptors/corda-descriptors/RestrictedDescriptor.cxx:build", "libs/amqp/src/schema/descriptors/corda-descriptors/FieldDescriptor.cxx:build", "libs/amqp/src/schema/OrderedTypeNotations.h:operator<<"]}
{"id": "C107", "title": "What reading property and type definitions writes to standard output", "statement": "What the library writes to standard output while it makes the properties and containers of a schema and puts its types in order is known to the letter, for all definitions, also if making fails: names of types and properties, what containers hold, and which types are compared, in which order. It does not affect the outcome. Nothing else in the definitions shows in it: the same is written, and the types end up in the same order, whatever the labels, fingerprints, provided types and constants of types and the names, defaults, labels and flags of properties of the types put in order, and whatever the default, label and flags of a property that is made.", "quantifier": "every property and container definition and every sequence of types in groups, of any size; for the exact text of putting types in order, unless a required type is missing, in which case behaviour is undefined; any platform and any content of strings that have been moved from", "why_tests_cant": "quantifies over all schemas and over pairs of schemas; no test looks at standard output", "anchors": ["libs/corda-utils/include/debug.h:DBG", "libs/amqp/src/schema/described-types/field-types/Field.cxx:make", "libs/amqp/src/schema/restricted-types/Restricted.cxx:make", "libs/amqp/src/schema/described-types/Composite.cxx:dependsOnRHS", "libs/amqp/src/schema/restricted-types/Restricted.cxx:dependsOnRHS", "libs/amqp/src/schema/OrderedTypeNotations.h:insert"]}
{"id": "C108", "title": "What making the readers for a schema writes to standard output", "statement": "What the library writes to standard output while it makes the readers for the types of a schema, and when a serialiser is installed, is known to the letter for every schema, also if an exception is thrown: the names of types, for each whether its reader is there already, what containers hold, and name, type and kind of every property up to the first that cannot be served. It does not affect which readers are made and how making them ends. With it, all that inspecting a blob writes is a function of the blob and the serialisers that have been installed. Fingerprints, labels, provided types, constants, and defaults, labels and flags of properties do not show: schemas that differ in nothing else yield the same text and succeed or fail alike.", "quantifier": "every schema, of any size, well formed or not; every factory in which no lookup has failed before, with any serialisers in it; any platform, order of evaluation and text already written", "why_tests_cant": "quantifies over all schemas and over pairs of schemas; no test looks at standard output", "anchors": ["libs/corda-utils/include/debug.h:DBG", "libs/amqp/src/assembler/CompositeFactoryInternal.cxx:process", "libs/amqp/src/assembler/CompositeFactoryInternal.cxx:computeIfAbsent", "libs/amqp/src/assembler/CompositeFactoryInternal.cxx:processComposite", "libs/amqp/src/assembler/CompositeFactoryInternal.cxx:fetchReaderForRestricted", "libs/amqp/src/assembler/CompositeFactoryInternal.cxx:installCustomSerialiser"]}
