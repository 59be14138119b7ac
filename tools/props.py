import json
P=[]
def p(title, statement, quantifier, why, anchors):
    P.append(dict(id="C%02d"%(len(P)+1), title=title, statement=statement, quantifier=quantifier, why_tests_cant=why, anchors=anchors))
BP="src/binary_parser/mod.rs"
p("Parsing terminates on every input",
  "RemotingMessage::parse returns for every byte slice: no loop over declared counts, no nesting of classes, arrays or references, and no run of referenceable records can go on forever; the nesting depth of recursive calls is bounded by the length of the input.",
  "all byte slices of any length",
  "A test only ever tries finitely many inputs; a non-terminating input (for example a zero-length chunk loop or a non-consuming member) need not be among them.",
  [BP+"::BinaryParser::deserialize", BP+"::parse_binary_array", BP+"::parse_referenceables", BP+"::parse_array_single_object"])
p("Parsing never panics",
  "RemotingMessage::parse answers every byte slice with Ok or Err and never panics (neither through unreachable!() nor through an out-of-range drain). Part that holds: unreachable!() is never reached, no input without both a BinaryArray record byte (7) and a multiple-null record byte (13 or 14) panics, and an input panics if and only if the parser meets, at a position where it expects a record, a BinaryArray whose members stand for a number of values that is not a multiple of the product of all lengths but the first (so with at least two dimensions and a null run). The full statement is violated by the code for multi-dimensional BinaryArrays containing a null run.",
  "all byte slices",
  "The panic needs a particular interplay of declared lengths and null runs; samples miss it and cannot establish its absence.",
  [BP+"::parse_member_reference (unreachable!)", BP+"::parse_binary_array (members.drain)"])
p("Header acceptance is exact",
  "A message is only accepted if it starts with byte 0, a non-negative little-endian root id, any header id, major version 1 and minor version 0; any other major version, minor version or a negative root id gives the corresponding dedicated error, whatever follows the header.",
  "all byte slices; all four 32-bit header fields and all bodies",
  "2^128 headers times unboundedly many bodies.",
  ["src/record/serialization_header.rs::SerializationHeader::parse", BP+"::parse_remoting_message"])
p("Nothing may follow MessageEnd, and MessageEnd is mandatory",
  "If parse succeeds then the last byte of the input is 11 (MessageEnd) and the header plus the body take up exactly all bytes before it; if the bytes consumed up to MessageEnd are followed by further bytes the result is the trailing-data error.",
  "all byte slices",
  "Quantifies over all accepted inputs and all trailing garbage.",
  [BP+"::parse_remoting_message", "src/record/message_end.rs"])
p("Accepted messages are self-delimiting (prefix-free)",
  "No accepted message is a proper prefix of another accepted message, so a message boundary can be recognised without knowing the total length. Violated by the code: the optional-library look-ahead in front of primitive members makes two accepted messages of which one is a proper prefix of the other. It is also violated without any library, by references into what an abandoned record has left behind. Part that holds: a message of the grammar, with or without libraries, in which nothing that stands where a library record may stand is the beginning of a cut-off library record gives trailing-data when any non-empty bytes are appended; and so does every accepted message without byte 9 after the header that nowhere contains such a beginning.",
  "all pairs of accepted messages m, m ++ t",
  "A universally quantified statement over pairs of unboundedly long messages.",
  [BP+"::parse_binary_library", BP+"::parse_member_reference", BP+"::parse_remoting_message"])
p("Strings are borrowed from the input",
  "Every string in a parse result (class names, library names, member names, string values, method and type names, call context) is a contiguous slice of the input bytes.",
  "all accepted byte slices, every string anywhere in the result",
  "The borrow is type-checked for lifetime but not for content; the result tree has unbounded depth.",
  ["src/data_type/length_prefixed_string.rs", BP])
p("Strings are valid UTF-8",
  "Every string in a parse result is well-formed UTF-8, i.e. the UTF-8 encoding of a sequence of Unicode scalar values, and a length-prefixed string whose payload is not well-formed is never accepted as a string.",
  "all accepted byte slices, every string anywhere in the result",
  "UTF-8 validity has unboundedly many good and bad cases (overlong forms, surrogates, truncations).",
  ["src/data_type/length_prefixed_string.rs::parse"])
p("Length prefixes decode exactly",
  "The variable-length prefix of a string is read as little-endian 7-bit groups of at most five bytes; every length below 2^31 written in its canonical form is read back as that length, non-canonical (zero-padded) forms of at most five bytes are read as the same number, a fifth byte above 7 is rejected, and no length of 2^31 or more can be produced.",
  "all byte sequences and all lengths 0 .. 2^31-1",
  "The bit-level reader has 2^40 prefixes; tests cover five of them.",
  ["src/data_type/length_prefixed_string.rs::parse_len"])
p("A string takes exactly its declared bytes",
  "Parsing a string consumes the prefix and exactly the declared number of bytes, returns exactly these bytes, and leaves the rest of the input untouched; if fewer bytes are available the string is rejected.",
  "all strings of all lengths below 2^31, all following bytes",
  "All contents and lengths up to 2^31-1.",
  ["src/data_type/length_prefixed_string.rs::parse"])
p("Primitive values round-trip bit-exactly",
  "For every primitive type and every list of values of this type, the message holding them as an ArraySinglePrimitive in little-endian two's-complement (IEEE bit pattern for Single/Double, tick count for TimeSpan, raw 64 bits for DateTime) is parsed to exactly this list of values.",
  "all primitive types, all in-range values, all lists shorter than 2^31",
  "2^64 values per element and unbounded lists.",
  ["src/data_type/*.rs", "src/record/member_primitive_untyped.rs", BP+"::parse_array_single_primitive"])
p("Values stay in the range of their type",
  "Every integer in a parse result lies in the range of its declared type, every Char is a Unicode scalar value (in fact below 256), every float is a bit pattern of its width, and every object's members have pairwise distinct names.",
  "all accepted byte slices, every value anywhere in the result",
  "Unbounded tree, all inputs.",
  ["src/value/mod.rs::Value", "src/data_type/*.rs"])
p("Booleans are strictly 0 or 1",
  "A Boolean is accepted only from byte 0 (false) or 1 (true); each of the other 254 bytes makes the whole message fail with the dedicated error.",
  "all 256 byte values at any position where a Boolean is expected (array elements, members at any depth, method arguments and return values)",
  "Combination of byte value, position and length.",
  ["src/data_type/boolean.rs"])
p("Chars are decoded as UTF-8",
  "A Char is read as one UTF-8 encoded code point as the format prescribes. Violated: the code always reads exactly one byte and interprets it as Latin-1; the part that holds is that ASCII chars are read correctly and that every Char consumes exactly one byte.",
  "all byte sequences",
  "All code points and their encodings.",
  ["src/data_type/char.rs::Char::parse"])
p("Identifiers and lengths are validated",
  "Object ids and library ids are accepted only in 1 .. 2^31-1 and counts/lengths only in 0 .. 2^31-1; zero or negative object or library ids and negative lengths are rejected with the dedicated error at the position of the field.",
  "all 2^32 field values, all following bytes",
  "2^32 field values in every id position.",
  ["src/combinator.rs::object_id", "src/combinator.rs::library_id", "src/combinator.rs::length"])
p("Primitive members of classes round-trip",
  "A primitive value stored as a typed member of a class is read back unchanged. Violated: a value whose first byte is 12 is taken for a BinaryLibrary record when the following bytes allow it (e.g. the int32 pair 12, 0 makes the message fail and other continuations silently change the value). Part that holds: every member whose first byte is not 12, or where the bytes from there on do not read as a library record, is read back unchanged.",
  "all primitive types and values, all following bytes",
  "Depends on the value and on the bytes behind it.",
  [BP+"::parse_member_reference", BP+"::parse_binary_library"])
p("Objects carry their declared class, library and members",
  "For a well-formed class record (system or library class, with or without type info) whose members are single values, the resulting Object has exactly the declared class name, the name of the BinaryLibrary record with the declared library id (none for system classes), and maps each declared member name to the value in the same position.",
  "all class names, library names, member lists and member values",
  "Unbounded member lists and nested member values.",
  [BP+"::parse_classes", "src/common/class_info.rs", "src/common/member_type_info.rs"])
p("Duplicate library ids are rejected",
  "A library id can be declared once: a second BinaryLibrary record with the same id makes the message fail, so the library name of an object never depends on which of several declarations is consulted.",
  "all messages, all library ids and names",
  "Quantifies over the whole history of records before the duplicate.",
  [BP+"::parse_binary_library"])
p("A library may precede any referenceable record",
  "The grammar allows a BinaryLibrary record in front of arrays and method records as well as classes. Violated: at the top level a BinaryLibrary record followed by anything but a class record is always rejected as a duplicate library id, because the first alternative has already registered it.",
  "all library records and all following bytes that are not a class record",
  "Universally quantified over what follows.",
  [BP+"::parse_referenceable", BP+"::parse_arrays", BP+"::alt_mut"])
p("Classes can be reused through ClassWithId",
  "A ClassWithId record creates an object of the class defined by an earlier class record. Violated: the parser never records class definitions, so every message in which a referenceable ClassWithId record is reached is rejected.",
  "all messages starting with any number of records followed by ClassWithId",
  "An invariant over the whole parse history.",
  [BP+"::parse_classes", "src/record/class_with_id.rs"])
p("Duplicate object ids are rejected",
  "Two objects with the same id are rejected. Violated: for top-level objects the later definition silently replaces the earlier one.",
  "all pairs of objects with the same id",
  "All values and ids.",
  [BP+"::parse_referenceable"])
p("References resolve to the object with that id",
  "A member reference yields exactly the value of the record with the referenced id, whether that record came earlier (top-level) or comes right after the referring object; no other value can take its place, and a reference whose target is missing makes the message fail.",
  "all ids, all target values, all positions of the reference",
  "Depends on the whole object table at the time of resolution.",
  [BP+"::resolve_members"])
p("An object may be referenced more than once",
  "Two references to the same object both resolve to it. Violated: the first reference removes the object from the table, the second one is rejected.",
  "all ids and values",
  "Holds for every shared object, not just sampled ones.",
  [BP+"::resolve_members"])
p("Reference cycles are rejected, never looped on",
  "A record that refers to its own id, directly or through a chain of following records, does not make the parser loop: the message is rejected with an error at the first record of the cycle (unless another record with one of these ids has been defined before it, or a record follows the cycle).",
  "all ids and remaining bytes",
  "Unbounded set of messages.",
  [BP+"::resolve_members"])
p("The root object is the one named by the header",
  "Without a method record, a message with root id 0 yields Null whatever objects it defines, and a message with root id r yields the most recently defined, not yet referenced object with id r; if there is none the error is missing-root-object.",
  "all root ids and all sequences of top-level records",
  "Quantifies over all sequences of records.",
  [BP+"::parse_remoting_message"])
p("Single-dimension arrays have their declared length",
  "ArraySinglePrimitive, ArraySingleObject and ArraySingleString yield arrays of exactly the declared length. Violated for object and string arrays whose last null run overshoots; the length is then larger. Part that holds: primitive arrays are exact, object/string arrays are never shorter than declared and exact when the null runs fit.",
  "all declared lengths and element sequences",
  "All lengths up to 2^31-1.",
  [BP+"::parse_array_single_object", BP+"::parse_array_single_string", BP+"::parse_array_single_primitive"])
p("Multi-dimensional arrays have their declared shape",
  "A BinaryArray of lengths l1..lk without multiple-null records yields a nested array with exactly this shape whose leaves in row-major order are the member values; an element count that overflows usize is rejected as an invalid length.",
  "all ranks, all lengths, all member values",
  "All shapes; the chunking loop runs over dynamic lengths.",
  [BP+"::parse_binary_array"])
p("Lower bounds do not affect the value",
  "Two offset BinaryArray records that differ only in their (non-negative) lower bounds parse to the same value; a negative lower bound is rejected.",
  "all ranks, lengths and lower bounds",
  "2^32 bounds per dimension.",
  ["src/record/binary_array.rs", BP+"::parse_binary_array"])
p("Result size is bounded by input size",
  "The number of values in a parse result is at most proportional to the input length. Violated: a 32-byte message can yield an array of up to 2^31-1 nulls. Part that holds: with n bytes of input of which every null run stands for at most B nulls per byte, at most 2 B n (n+1) values; without null runs at most 2 n (n+1).",
  "all input lengths",
  "A growth-rate statement over all inputs.",
  [BP+"::parse_array_single_object", "src/record/object_null_multiple.rs"])
p("Null runs are positive",
  "ObjectNullMultiple256 and ObjectNullMultiple with a count that is not positive are rejected with the invalid-null-count error; positive counts stand for exactly that many nulls.",
  "all 2^8 and 2^32 counts",
  "All count values.",
  ["src/record/object_null_multiple_256.rs", "src/record/object_null_multiple.rs"])
p("Member names keep their own values in the presence of null runs",
  "In an accepted class record each member name is bound to the member value written for it. Violated when a multiple-null record appears among the members: later members are shifted to wrong names and trailing values are dropped.",
  "all classes and member lists",
  "All positions of the null run.",
  [BP+"::parse_classes", BP+"::resolve_members"])
p("A typed class member has the declared class and library",
  "If the member type info declares a (system) class, the inline object found there is only accepted with exactly this class name and exactly this library (or none); otherwise it must be a null record.",
  "all accepted messages with typed class members",
  "All pairs of declared and actual names.",
  [BP+"::parse_member_reference"])
p("Message flag rules are enforced",
  "A method record is only accepted with at most one flag per category (args, context, return) and with the exclusive pairs args/exception, return/exception, return/signature and exception/signature respected. Violated for the flag ReturnValueInline, which the code leaves out of the return category; enforced for all other flags.",
  "all 2^32 flag words",
  "2^32 words.",
  ["src/record/message_flags.rs::MessageFlags::parse"])
p("Method call arguments come from where the flags say",
  "For an accepted method call: with ArgsInline the args are exactly the inline values; with ArgsIsArray the elements of the call array; with ArgsInArray the first element of the call array, which must be an array; otherwise none. The call context is present exactly with ContextInline. Method and type names are those in the record.",
  "all method call messages",
  "All flags, names and argument lists.",
  [BP+"::parse_method_call", "src/record/binary_method_call.rs"])
p("Method return fields come from where the flags say",
  "For an accepted method return: the return value is present exactly with ReturnValueInline and is the inline value; args and context follow the same rules as for calls.",
  "all method return messages",
  "All flags and values.",
  [BP+"::parse_method_return", "src/record/binary_method_return.rs"])
p("The call array must be the root object",
  "A call array whose object id differs from the root id of the header makes the message fail.",
  "all ids",
  "All pairs of ids.",
  [BP+"::parse_call_array"])
p("Errors point into the input",
  "The position recorded in every error is a suffix of the input.",
  "all rejected byte slices",
  "Every error path of every parser.",
  ["src/error.rs::Error", BP])
p("DateTime and TimeSpan lose no information",
  "DateTime::ticks and DateTime::kind split the raw 64-bit value as ticks*4 + low two bits (low bits 1 = UTC, 2 = Local, otherwise none) with ticks in -2^61 .. 2^61-1; TimeSpan::value is the raw value.",
  "all 2^64 raw values",
  "2^64 values incl. negative ones (arithmetic shift).",
  ["src/value/date_time.rs", "src/value/time_span.rs"])
p("Untyped null and string members are interchangeable with typed ones",
  "A member declared as String may be a string, a null or a reference, as the format allows. Violated: for a String-typed member only an inline BinaryObjectString is accepted; null and reference make the message fail.",
  "all messages with String-typed members",
  "All records in this position.",
  [BP+"::parse_member_reference"])
p("Acceptance is exactly the record grammar",
  "RemotingMessage::parse accepts a byte slice with result m if and only if the slice is derivable in the declarative record grammar (Grammar.v) with semantic value m; in particular the result is unique and every byte is accounted for.",
  "all byte slices and all results",
  "An equivalence over the infinite language of messages.",
  [BP])
p("Nesting depth is unlimited, but proportional to the input",
  "For every depth there is an accepted message, of size linear in the depth, with that nesting depth: there is no depth limit (recursion in the implementation, and in whoever walks through a result, is proportional to it). The other way round, a result is never nested more deeply than half the number of bytes of the message; a level takes at least four bytes in a message of the grammar, and four bytes are enough.",
  "all depths; all accepted byte slices, every value at any position of the result",
  "Unbounded family; a bound on all inputs.",
  [BP+"::parse_classes", BP+"::parse_member_reference"])
p("Deserializing a primitive wrapper equals deserializing the primitive",
  "from_slice into an integer, float, bool or char target gives the same result for a System.X object holding m_value as for the bare value, and rejects a wrapper with any other member layout and every object of a class that comes from a library.",
  "all wrapper classes, all values, all numeric targets",
  "All values and targets.",
  ["src/value/object.rs::ObjectDeserializer::deserialize_any", "src/data_type/mod.rs::impl_primitive"])
p("Integer targets never silently truncate",
  "from_slice into an integer type succeeds exactly if the stored integer is in range of the target, and then yields the same number.",
  "all integer values and integer targets",
  "2^64 values times targets.",
  ["src/value/mod.rs::ValueDeserializer::deserialize_any"])
p("Deserializing an array consumes every element",
  "An array deserializes into Vec<T> with one element per value in order and into [T; N] only if it has exactly N elements.",
  "all arrays, all element types",
  "All lengths.",
  ["src/value/mod.rs::ArrayDeserializer"])
p("Deserializing a generic List yields exactly _size elements",
  "A System.Collections.Generic.List object deserializes into Vec<T> as the first _size items, and is rejected if _size is negative or exceeds the number of items. Violated: _size equal to the number of items plus one is accepted. Part that holds: for _size up to the number of items exactly the first _size items; for _size beyond items plus one, or negative, an error.",
  "all item lists and all _size values",
  "All sizes, off-by-one at the boundary.",
  ["src/value/object.rs::ListDeserializer"])
p("Null maps to None and nothing else does",
  "Inside arrays, maps and structs an Option<T> target is None exactly for Null, and Some of the T otherwise. At the top level this is violated: from_slice::<Option<T>> of a non-null message is rejected.",
  "all values, all T",
  "All values and targets.",
  ["src/value/mod.rs::deserialize_option", "src/remoting_message.rs::deserialize_option (forwarded)"])
p("Method calls and returns do not deserialize into data",
  "from_slice on a method call or method return message is always an error, for every target type.",
  "all method messages and all targets",
  "All targets.",
  ["src/remoting_message.rs::to_deserializer"])
p("Structs deserialize by member name",
  "Deserializing an object into a struct assigns to each field the value of the member with the same name, independent of member order and class; a missing non-optional field is an error. Unknown members are ignored; violated for an unknown member that is an object of a system class with a fixed layout (System.Int32, List, ..) and does not have this layout: it makes the whole struct fail.",
  "all objects and all structs",
  "All member orders.",
  ["src/value/object.rs::ObjectDeserializer::deserialize_struct"])

p("A record that cannot be read leaves no trace",
  "When the parser tries to read a record and fails, the rest of the message is treated as if the attempt had not been made: an unreadable record makes the message fail, and nothing that was read inside it can show up in the result. Violated: an inner object that was already completed stays in the object table and a later reference can pick it up, so that a message with an unreadable record is accepted. Part that holds: for messages without member references and library records the unreadable record is always rejected.",
  "all messages with an unreadable record at any position",
  "All partial prefixes of records at which reading can stop.",
  [BP+"::parse_referenceable", BP+"::parse_classes", "src/combinator.rs::alt_mut (state kept on backtracking)"])
p("The order of object members never matters for from_slice",
  "Objects keep their members in a hash map whose iteration order is arbitrary; from_slice gives the same result for every order the hash maps of the message (at any depth) may have, for every target type.",
  "all accepted messages, all target types, all iteration orders of all hash maps in the value",
  "Iteration order is random per process.",
  ["src/value/object.rs::ObjectDeserializer", "src/value/object.rs::Object::members"])
p("Newtype structs and enums read like their content",
  "A newtype struct N(T) deserializes from whatever T deserializes from, and a C-like enum from an integer or a string. Violated: a newtype struct is only read from an array with exactly one element or a List of size one, and no message at all deserializes into an enum.",
  "all messages, all inner types",
  "All messages and targets.",
  ["src/value/mod.rs::forward_to_deserialize_any", "src/remoting_message.rs::forward_to_deserialize_any"])
p("Objects deserialize into maps by member name",
  "An object that is not one of the system classes with a fixed layout deserializes into BTreeMap<String, T> exactly if every member deserializes into T; the map then has exactly the member names as keys, each with the value of its member, in ascending order.",
  "all objects and value types",
  "All member sets and orders.",
  ["src/value/object.rs::ObjectDeserializer::deserialize_any"])
p("Borrowed results point into the input",
  "Every &str or &[u8] at any depth of a from_slice result (in arrays, tuples, options, maps, structs, newtypes) is a contiguous slice of the input bytes.",
  "all inputs, all target types, all positions in the result",
  "All inputs and types.",
  ["src/value/mod.rs::ValueDeserializer::deserialize_any", "src/lib.rs::from_slice"])
p("Characters and one-character strings",
  "A string message deserializes into char exactly if it is the UTF-8 encoding of a single Unicode scalar value, which is the result; an array of Chars deserializes into Vec<char> as these code points and into Vec<String> as their UTF-8 encodings.",
  "all strings and all arrays of chars",
  "All 1.1 million scalar values and all strings.",
  ["src/value/mod.rs::ValueDeserializer::deserialize_any"])
p("Error texts identify the kind of error",
  "Different kinds of parse errors have different texts, also in the errors of from_slice, and the kinds that any input can produce are exactly the following: trailing data, invalid call array id, missing root object, invalid null count, object id, length, versions, root id, metadata id (missing or invalid), method arguments, unexpected class, binary type, array type, library id (missing, invalid, duplicate), a missing header or MessageEnd, class info, message flags (expected or invalid), primitive type, any primitive other than null (decimals only if some string is no decimal), and 'other error'. 'unexpected end of input', 'unresolvable member reference' and 'duplicate object ID' are never reported.",
  "all inputs, all error kinds",
  "That a kind never occurs is a statement about all inputs.",
  ["src/error.rs::Display for ErrorInner", "src/record/mod.rs::RecordType::description", "src/enumeration.rs::PrimitiveType::description", "src/lib.rs::from_slice"])
p("Every message content can be transmitted",
  "Within the limits of the format (counts below 2^31), a value, a method call or a method return is the result of parsing some message exactly if: all its strings are UTF-8 and shorter than 2^31 bytes, all numbers are in the range of their type (chars below 256), decimals are what some string denotes, objects have distinct member names, a top-level value is an object, array, string or null, and a return value is not an object or array. So the parser neither loses the ability to express a value (no value is unreachable) nor produces anything else.",
  "all values, method calls and method returns (any nesting, any number of libraries, members and elements below 2^31)",
  "An existence statement for every value of a recursive type, and a restriction on the results for all inputs.",
  ["src/remoting_message.rs::RemotingMessage::parse", "src/binary_parser/mod.rs", "src/value/mod.rs::Value"])
p("from_slice follows one set of reading rules",
  "For every type built from bool, the integers, f32, f64, char, String, &str, &[u8], unit, Option, Vec, tuples and arrays, BTreeMap<String, T>, derived structs, newtype structs and enums, IgnoredAny, and types that take whatever comes (as a JSON value does), from_slice returns d exactly if the bytes parse to a value that reads as d by these rules: scalars convert (integers only in range, integers and floats to floats by a cast, chars and decimals to text, text to char only if it is one character, only strings of the message are borrowed); wrapper classes read as their content; null reads as unit or None; arrays and the first _size items of lists read element by element, tuples only if the lengths agree, newtypes only if there is one element; objects read as structs member by member (missing Option fields are None, other members must be ignorable), ordinary objects as sorted maps; enums never.",
  "all inputs and all such types, of any nesting",
  "An equivalence over all inputs and all types.",
  ["src/lib.rs::from_slice", "src/value/mod.rs::ValueDeserializer", "src/value/object.rs::ObjectDeserializer", "src/value/object.rs::ListDeserializer", "src/remoting_message.rs"])
p("Results of from_slice have the requested type",
  "Whatever from_slice returns is a value of the requested type at every depth: integers within the range of the type, chars that are Unicode scalar values, strings and map keys that are valid UTF-8, tuples with one component per type, structs with exactly the declared fields in order, maps with strictly ascending keys.",
  "all inputs and target types",
  "All inputs and types.",
  ["src/lib.rs::from_slice", "src/value/mod.rs::ValueDeserializer"])
p("The target type does not influence parsing",
  "Whether from_slice reports a parse error, and which, is the same for all target types and the same as for RemotingMessage::parse; so is whether it panics.",
  "all inputs, all pairs of types",
  "All inputs and types.",
  ["src/lib.rs::from_slice"])
p("Messages compare equal exactly if they hold the same content",
  "Two parsed messages are == exactly if they have the same structure and content: floats and decimals are compared as the numbers they stand for (0.0 == -0.0, a NaN equals nothing, 1.0 == 1.00), objects by class, library and members in any order, and everything else exactly. Consequently == is symmetric and transitive, a message equals itself exactly if there is no NaN inside, and the enumeration order of the members' hash maps never matters.",
  "all pairs and triples of byte strings that parse, all enumeration orders of the members of the objects",
  "Equality must be right for all pairs of values of unbounded depth; a test compares a few.",
  ["src/value/mod.rs: Value (derive PartialEq)", "src/value/object.rs: Object (derive PartialEq)", "src/remoting_message.rs: RemotingMessage, MethodCall, MethodReturn (derive PartialEq)"])
p("Every input has exactly one of three outcomes",
  "RemotingMessage::parse accepts, refuses or panics, and which of these is determined by the format rules alone: it accepts exactly the byte strings in the acceptance rules (with the result these rules give), panics exactly if a record is expected somewhere in the message at which an array whose values do not fill up its rows is met, and refuses all others with an error that points into the input. No input is in two of these classes, and none is read forever.",
  "all byte strings",
  "A partition of all byte strings; the rules include what records that were given up leave behind.",
  ["src/remoting_message.rs::RemotingMessage::parse", "src/binary_parser/mod.rs::BinaryParser::parse_remoting_message", "src/binary_parser/mod.rs::BinaryParser::parse_referenceable"])
p("Types that take whatever comes get the content as it is",
  "A type that accepts every visitor call (such as a JSON value or the buffer of an untagged enum) is read from a message exactly if its value can be described, and gets this description: scalars as they are, null as unit, arrays and List<T> as sequences, wrapped primitives as the primitive in the wrapper's type, every other object as the map of its members. This succeeds exactly when IgnoredAny does, and Vec and maps of such a type are read exactly as such a type is.",
  "all byte strings, all values",
  "An equivalence over all inputs and values of unbounded depth.",
  ["src/lib.rs::from_slice", "src/value/mod.rs::ValueDeserializer::deserialize_any", "src/value/object.rs::ObjectDeserializer::deserialize_any"])
p("An error names the first defect and its position",
  "Every message that is refused is refused with one particular error, given by the format rules: its kind is the kind of the first thing in the message that is not well-formed (a number that is cut off or out of range, an unknown code, a missing or repeated library, a class without its library, an object of another class than the declared one, a missing MessageEnd, trailing data, a missing root object, wrong method arguments or flags, ...), and its position is the place of that thing. Records that end in the middle of a string are not reported as such but given up, and what stands there is then reported as not being a MessageEnd. from_slice reports the same error for every type.",
  "all byte strings, all error kinds and positions",
  "An equivalence over all byte strings: a test checks one broken message at a time.",
  ["src/error.rs::Error", "src/remoting_message.rs::RemotingMessage::parse", "src/binary_parser/mod.rs", "src/record", "src/data_type"])
p("The work of parsing is proportional to the input",
  "Parsing does not backtrack without bound: for every input, whether it is accepted or refused, the number of calls of record parsers plus the number of bytes these calls consume is at most 160 times the length of the input plus 250, however deep objects, arrays, references and libraries are nested in each other and wherever the input is broken; for an accepted message every byte is in that account. (Not part of the account: moving parsed values into the result, whose size is the subject of C28, and the bytes a call looks at before it gives up. Even if every call that gives up is charged for the whole input, the account is at most quadratic: (n+1) (160 n + 250) for n bytes.)",
  "all byte strings",
  "A test can time a few messages; that no nesting of alternatives leads to repeated parsing of the same bytes is a statement about all inputs.",
  ["src/binary_parser/mod.rs", "src/remoting_message.rs::RemotingMessage::parse"])
p("Every Deserialize implementation is served by the same rules",
  "from_slice::<T> for an arbitrary T, including recursive and hand-written implementations and ones that go on after an error, returns what these rules say and nothing else: scalars, chars, decimals and strings are handed to the visitor by one call of the right kind with exactly that value; arrays element by element and then 'no more'; a List<T> at most _size answers (elements that failed do not count, the answer 'no more' does); wrapper objects as the content in the wrapper's type; other objects, and all objects if a struct is asked for, member by member; null, or anything else, to an Option as none or some, except at the top level; a visitor's result counts only if it left nothing behind; method calls and returns are an error without any visitor being called, parse errors are passed on. The rules include the texts of all errors the crate itself makes, which the implementation may inspect. They are deterministic for a given enumeration order of the members, and for the standard and derived types they give the results of C56.",
  "all implementations of Deserialize and Visitor, all byte strings, all enumeration orders of hash maps",
  "A statement about all programs that use the crate, not about a list of types.",
  ["src/lib.rs::from_slice", "src/value/mod.rs::ValueDeserializer", "src/value/mod.rs::ArrayDeserializer", "src/value/object.rs::ObjectDeserializer", "src/value/object.rs::ListDeserializer", "src/remoting_message.rs"])
p("Well-behaved Deserialize implementations always get an answer",
  "If an implementation does not nest Options without end and its visitors stop asking some time after they were told that there are no more elements, from_slice comes to an end for every input, however large the counts in it are; if its visitors ask for a member's value only after its name, from_slice never panics in serde's map access. The implementations of the standard and derived types are of this kind, recursive types can be.",
  "all such implementations, all byte strings",
  "Termination for all inputs and all programs that use the crate.",
  ["src/lib.rs::from_slice", "src/value/mod.rs::ArrayDeserializer::next_element_seed", "src/value/object.rs::ListDeserializer::next_element_seed"])
p("No Deserialize implementation succeeds on a part of the data",
  "If from_slice::<T> succeeds and T's implementation does not turn errors into results, then of a top-level array every element was handed to T's visitor, in order; of an ordinary top-level object every member; and of a List<T> object exactly as many elements were asked for as its size says. An implementation that stops early gets an error.",
  "all implementations of Deserialize, all byte strings",
  "A statement about all programs that use the crate and all inputs.",
  ["src/value/mod.rs::ArrayDeserializer::end", "src/value/object.rs::ListDeserializer::end", "src/value/object.rs::ObjectDeserializer::deserialize_any"])
p("An implementation that stops early is told the true numbers",
  "If T's visitor returns a result before it has asked for all elements of a top-level array, or for all members of an object that is handed over as a map, from_slice::<T> returns the error 'invalid length N, expected K elements in array' (or 'in map', and 'element' if K is 1), where N is the number of elements (members) in the message and K the number of those that were asked for, whether they could be read or not.",
  "all implementations of Deserialize that pass errors on, all byte strings, all enumeration orders of hash maps",
  "A statement about all programs that use the crate and all lengths.",
  ["src/value/mod.rs::ArrayDeserializer::end", "src/value/mod.rs::ExpectedInArray", "src/value/object.rs::ObjectDeserializer::deserialize_any"])
p("The length error of a List<T> names the elements that were read",
  "If T's visitor returns a result before it has got all elements of a top-level List<T> object, from_slice::<T> returns the error 'invalid length N, expected K elements in list', where N is the size of the list and K the number of elements the visitor was given.",
  "all implementations of Deserialize that pass errors on, all byte strings",
  "A statement about all programs that use the crate and all lists, also those with fewer items than their size says.",
  ["src/value/object.rs::ListDeserializer::next_element_seed", "src/value/object.rs::ListDeserializer::end", "src/value/object.rs::ExpectedInList"])
p("Object and library ids are only names",
  "If all object ids in a message (those of records, of references, and the root id) are consistently replaced by others, and likewise all library ids, RemotingMessage::parse returns an equal message: the result depends neither on which numbers a writer has chosen nor on whether an object and a library share a number.",
  "all messages of the format (any nesting, forward and backward references, libraries, method calls), all injective renamings",
  "Ranges over all messages and all renamings; bytes of ids can be mistaken for other records.",
  ["src/binary_parser/mod.rs::BinaryParser", "src/remoting_message.rs::RemotingMessage::parse", "src/record/binary_library.rs"])
p("What was read before matters only through the ids that the rest names",
  "Take two inputs with the same root id that begin with (possibly quite different) complete records and then go on with the same bytes, which may be anything. If the objects and libraries known at that point agree on the root id and on every id whose four bytes occur in the rest, RemotingMessage::parse returns the same for both: the same message, the same error or the same panic. In particular, a record that is not the root and whose ids do not occur in what follows may be inserted or left out, as long as no member value in front of it is mistaken for a library record.",
  "all pairs of inputs that begin with well-formed records, all continuations, well-formed or not",
  "Relates the runs on all pairs of inputs with a common rest; no finite set of pairs covers every table and every rest.",
  ["src/binary_parser/mod.rs::BinaryParser", "src/binary_parser/mod.rs::BinaryParser::parse_member_reference", "src/binary_parser/mod.rs::BinaryParser::parse_referenceables", "src/remoting_message.rs::RemotingMessage::parse"])
p("The order of independent records does not matter",
  "If the records at the beginning of a message (each with its library, its members and the records its references need) name no common objects and none declares a library that another names, they may be put into any other order, and spelled in another way: RemotingMessage::parse returns the same, whatever follows.",
  "all lists of well-formed, pairwise independent records, all permutations, all continuations",
  "Ranges over all permutations of all lists of records.",
  ["src/binary_parser/mod.rs::BinaryParser", "src/binary_parser/mod.rs::BinaryParser::parse_referenceables", "src/remoting_message.rs::RemotingMessage::parse"])
p("Names and values are only copied",
  "If in a message class names, library names, string values, method names and primitive values are replaced by others (the same for the same, each primitive value by one of its type), and member names by others so that different ones stay different, RemotingMessage::parse returns the original result with the same replacements: no name or value has an influence on how the rest is read.",
  "all messages of the format (any nesting, references, libraries, typed members, method calls), all such replacements",
  "Ranges over all messages and all replacement functions.",
  ["src/binary_parser/mod.rs::BinaryParser", "src/remoting_message.rs::RemotingMessage::parse", "src/record/member_primitive_untyped.rs", "src/data_type/length_prefixed_string.rs"])
p("Which values of a type can be received",
  "For every standard or derived Rust type T and every value of T within the limits of the format (strings, keys and lists shorter than 2^31), some byte string makes from_slice::<T> return that value; the only exceptions, which no byte string makes it return, are values with an integer beyond 64 bits, with a &[u8] that is not UTF-8, or with Some(None) or Some(()) anywhere inside, and, if T is an Option, everything but None. Nothing else is ever returned.",
  "all types, all values of them, all byte strings",
  "An existence claim for infinitely many values of infinitely many types, and for the exceptions a claim about all inputs.",
  ["src/lib.rs::from_slice", "src/value/mod.rs::ValueDeserializer", "src/value/object.rs::ObjectDeserializer", "src/remoting_message.rs::RemotingMessage::parse"])
p("Dates are those that .NET wrote",
  "If .NET writes a DateTime (its ToBinary value: the ticks since the year 1 in the lower 62 bits, the kind in the upper two), then DateTime::ticks of the parsed value is the number of ticks and DateTime::kind tells whether it is UTC or local.",
  "all instants from the year 1 to 9999, all three kinds",
  "Ranges over 3*10^18 instants; the few instants for which the result happens to be right can look like a passing test.",
  ["src/value/date_time.rs::DateTime::ticks", "src/value/date_time.rs::DateTime::kind", "src/data_type/datetime.rs", "src/lib.rs::from_slice"])
p("Everything that a method message carries is reported",
  "If a method call or return is accepted, the result contains all that it carried: the names, the context and the return value that the method record holds inline, and, if the flags say that the return value, the exception, the context, the signature or the properties are in the call array, those too: two messages with the same method record and different call arrays give different results.",
  "all method calls and returns, all flag words, all call arrays, all surrounding records",
  "Ranges over all flag words and all contents of the call array; compares pairs of messages.",
  ["src/binary_parser/mod.rs::BinaryParser::parse_method_call", "src/binary_parser/mod.rs::BinaryParser::parse_method_return", "src/binary_parser/mod.rs::BinaryParser::parse_call_array", "src/remoting_message.rs::MethodCall", "src/remoting_message.rs::MethodReturn", "src/remoting_message.rs::RemotingMessage::parse"])
p("Runs of nulls in arrays may be written in any way",
  "The format has three notations for nulls in arrays (ObjectNull, ObjectNullMultiple256, ObjectNullMultiple). If in the arrays of a message runs of nulls are replaced by any others that stand for as many nulls (one by one, in one run, in several runs, in either notation), RemotingMessage::parse returns the same.",
  "all messages, all arrays in them at any place (also referenced arrays and call arrays), all runs of nulls after any number of strings, references, primitive values and nulls, all ways to split them",
  "Ranges over all messages and all compositions of all run lengths.",
  ["src/binary_parser/mod.rs::BinaryParser::parse_array_single_object", "src/binary_parser/mod.rs::BinaryParser::parse_array_single_string", "src/binary_parser/mod.rs::BinaryParser::parse_binary_array", "src/record/object_null_multiple.rs", "src/record/object_null_multiple_256.rs", "src/remoting_message.rs::RemotingMessage::parse"])
p("Members may be references or nulls, whatever their declared type",
  "If a member of a class is declared with a type that is written as a record (string, class, object, array), then it may be written as a reference to a value of this type (read before, or in the next record) or as a null, and RemotingMessage::parse gives the referenced value, or Null, for it.",
  "all classes, all member positions, all declared types, all other members, all records before the object, all referenced values",
  "Ranges over all declared types, all tables of earlier records and all referenced values.",
  ["src/binary_parser/mod.rs::BinaryParser::parse_member_reference", "src/binary_parser/mod.rs::BinaryParser::parse_members_with_type_info", "src/binary_parser/mod.rs::BinaryParser::resolve_members", "src/remoting_message.rs::RemotingMessage::parse"])
p("It does not matter where a library is declared",
  "A library must be declared before it is used, but where does not matter: if two messages of the format declare the same libraries at other places (in front of the objects that use them or inside of other objects, in any order) and agree otherwise, RemotingMessage::parse returns the same for both.",
  "all messages of the format (any nesting, references, typed members, method calls), all places and orders of their library records",
  "Ranges over all messages and all placements of their libraries.",
  ["src/binary_parser/mod.rs::BinaryParser::parse_binary_library", "src/binary_parser/mod.rs::BinaryParser::parse_classes", "src/binary_parser/mod.rs::BinaryParser::parse_member_reference", "src/remoting_message.rs::RemotingMessage::parse"])
p("The attributes of derived structs keep their promises",
  "For a struct with #[derive(Deserialize)] and the attributes rename, alias, default, skip, deny_unknown_fields and deserialize_with, from_slice of an object (whatever its class) returns a value exactly if each field either has exactly one member with one of its names, which reads as the field's value, or no such member and a value for this case, and every other member can be skipped, and there is none if unknown fields are denied; otherwise it returns an error.",
  "all such structs (any number of fields, any names, any types with any Deserialize implementation), all objects at any place, all enumeration orders of the members",
  "Ranges over all struct declarations, all objects and all orders in which a HashMap can be enumerated.",
  ["src/lib.rs::from_slice", "src/value/mod.rs::ValueDeserializer", "src/value/object.rs::ObjectDeserializer"])
p("Equal messages are read as equal values",
  "If two messages are parsed as m and m', and m == m' is true, then from_slice gives for both results that are equal (under ==) or an error for both, at every standard or derived type; in particular neither the order of members nor the sign of zeros nor the way a decimal is written makes a difference.",
  "all pairs of accepted messages, all target types (numbers, strings, options, sequences, tuples, maps, derived structs, newtypes, any nesting)",
  "Ranges over all pairs of equal messages and all target types.",
  ["src/value/mod.rs::Value", "src/value/mod.rs::ValueDeserializer", "src/value/decimal.rs", "src/remoting_message.rs::RemotingMessage", "src/lib.rs::from_slice"])
p("Messages made by a program are read like received ones",
  "Deserialising a RemotingMessage that a program built itself (any Value with any members, class names, strings, and characters, also ones that no message can hold) follows the same rules as reading a received one: the result is determined by the rules of from_slice, has the requested type, does not depend on the order of the members, and a method call or method return is always an error.",
  "all messages a program can build (all values, any nesting), all target types, all Deserialize implementations, all enumeration orders of the members",
  "Ranges over all values and all target types; no list of messages covers them.",
  ["src/remoting_message.rs::RemotingMessage", "src/value/mod.rs::ValueDeserializer", "src/value/object.rs::ObjectDeserializer", "src/lib.rs::from_slice"])
p("A type may be replaced by a wider one",
  "If from_slice returns a value for a type T, then it returns the same value, written in the other type, for every type that holds at least the values of T: larger integer types, floats for integers, f64 for f32, String for &str or char, Option<T> for T (except at the top level, where only null is read as an Option), Vec for tuples and arrays, IgnoredAny for types without structs, and containers and structs of such types.",
  "all inputs, all types T, all wider types at any depth",
  "Ranges over all inputs and all pairs of types.",
  ["src/lib.rs::from_slice", "src/value/mod.rs::ValueDeserializer", "src/value/object.rs::ObjectDeserializer", "src/value/decimal.rs"])
p("Structs may leave out, reorder and add fields",
  "If an object is read as a derived struct, then it is also read as any other derived struct whose fields are some of the former's, in any order, possibly of wider types, or new optional ones that the object has no member for; the common fields get the same values and the new ones None.",
  "all objects (of any class, at any place, received or made by a program), all pairs of structs with such fields",
  "Ranges over all objects and all pairs of struct declarations.",
  ["src/lib.rs::from_slice", "src/value/mod.rs::ValueDeserializer", "src/value/object.rs::ObjectDeserializer"])
p("Type information may be left out",
  "If in a message the type information of classes and BinaryArrays is left out (every member and element declared as Object, or classes without member types at all, with primitive values carrying their own type codes), RemotingMessage::parse returns exactly what the typed message means: always for types replaced by Object, and for no types at all if two library records never stand in a row; also where the typed message itself is rejected because of C15. Two messages that differ only in their type information mean the same.",
  "all messages of the format, with any classes, arrays, references and nesting",
  "Ranges over all messages; no list of messages covers them.",
  ["src/binary_parser/mod.rs::BinaryParser::parse_members_with_type_info", "src/binary_parser/mod.rs::BinaryParser::parse_classes", "src/binary_parser/mod.rs::BinaryParser::parse_member_reference", "src/record/member_primitive_typed.rs", "src/record/class_with_members.rs", "src/record/system_class_with_members.rs", "src/remoting_message.rs::RemotingMessage::parse"])
p("Arrays may be written in different records",
  "If in a message arrays are written in another record (an array of objects as ArraySingleObject or as BinaryArray with one dimension, an array of strings as ArraySingleString or BinaryArray, an array of primitives as ArraySinglePrimitive or BinaryArray, a BinaryArray with another array type or other lower bounds), RemotingMessage::parse returns the same message.",
  "all messages of the format, any number of arrays rewritten at any place except the call array of a method record",
  "Ranges over all messages and all choices of the record of each array.",
  ["src/binary_parser/mod.rs::BinaryParser::parse_array_single_object", "src/binary_parser/mod.rs::BinaryParser::parse_array_single_string", "src/binary_parser/mod.rs::BinaryParser::parse_array_single_primitive", "src/binary_parser/mod.rs::BinaryParser::parse_binary_array", "src/record/binary_array.rs", "src/remoting_message.rs::RemotingMessage::parse"])
p("The same content may be written in many ways",
  "If a message is changed any number of times, in any order, by giving objects and libraries other ids, reordering independent records, writing runs of nulls differently, moving library declarations, leaving out type information and writing arrays in other records, RemotingMessage::parse returns for the changed message exactly what the original one means.",
  "all messages of the format, all sequences of such changes of any length",
  "Ranges over all messages and all finite sequences of changes.",
  ["src/remoting_message.rs::RemotingMessage::parse", "src/binary_parser/mod.rs::BinaryParser"])
p("Nothing is made up or read twice",
  "Whatever type from_slice is asked for: every single scalar and every map key in the result is stated by a scalar or a member name of the message of its own (in the type that was asked for). Nothing appears in the result that the message does not say, no part of the message is delivered twice (two fields never get the same member, two elements of a Vec never the same item), and the result has at most as many scalars and keys as the message has scalars and member names. The same holds for hand-written implementations of Deserialize that do not duplicate or make up anything themselves.",
  "every message that is accepted, every target type built from the standard types, derived structs, newtypes and enums and types that take whatever comes; every implementation of Deserialize whose steps keep what they are told at most once, every order of the members",
  "it quantifies over all types and all messages; a test sees one type and one message, and a duplicated or made-up part only shows for particular combinations (lists with spare capacity, structs read from arrays, maps)",
  ["src/value/mod.rs::ValueDeserializer", "src/value/mod.rs::ArrayDeserializer", "src/value/object.rs::ObjectDeserializer", "src/value/object.rs::ListDeserializer", "src/lib.rs::from_slice"])
p("Short inputs say little",
  "Whatever RemotingMessage::parse returns says at most twice as much as the input has bytes: all strings, class names, member names and numbers of the result taken together, each counted as often as it occurs, are at most twice as long as the input (and shorter than the input if it contains no references); only nulls, arrays and library names can be more than was written. So whatever type from_slice is asked for, the result has at most twice as many scalars and map keys as the input has bytes; the same holds for hand-written implementations of Deserialize that make nothing up.",
  "every input that is accepted, every target type built from the standard types, derived structs, newtypes and enums and types that take whatever comes, every implementation of Deserialize whose steps keep what they are told at most once",
  "it quantifies over all inputs; an input that makes the parser copy what it has read once (a record that is retried, an object that is referenced twice) has to be found first",
  ["src/remoting_message.rs::RemotingMessage::parse", "src/binary_parser/mod.rs::BinaryParser", "src/lib.rs::from_slice"])
with open('/verif/properties.jsonl','w') as f:
    for x in P: f.write(json.dumps(x)+"\n")
print(len(P))
for x in P: print(x['id'],x['title'])
