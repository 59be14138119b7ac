# Formal model of nrbf-rs in Rocq (Coq 8.16.1)

## 1. What is modelled

Every file under `/repo/src` that takes part in `RemotingMessage::parse` is
modelled function by function, plus the `serde` half (`from_slice`) for a fixed
universe of target types.

| Model file (rocq/theories) | Rust source |
|---|---|
| `Base.v` | `error.rs`, `combinator.rs`, `record/mod.rs` (RecordType), the nom 8 combinators that are used (`tag`, `take`, `alt`, `opt`, `count`, `length_count`, `cond`, `verify`, `map`, `map_res`, `map_opt`, `fail`, `number::complete::*`, `bits::complete::*`) |
| `Utf8.v` | `core::str::from_utf8` (validity only) |
| `Value.v` | `value/*.rs` (data), `remoting_message.rs` (data) |
| `DataTypes.v` | `data_type/*.rs`, `enumeration.rs` |
| `Records.v` | `common/*.rs`, `record/*.rs` |
| `Parser.v` | `binary_parser/mod.rs`, `remoting_message.rs` (`parse`) |
| `Serde.v` | `value/mod.rs`, `value/object.rs`, `data_type/mod.rs` (`impl_primitive!`), `remoting_message.rs`, `lib.rs` (feature `serde`), with serde's own `Deserialize` impls for the target universe |
| `Visitors.v` | the same files once more for an arbitrary implementation of `Deserialize`: a type is a program that calls the deserializers; `ArrayDeserializer`, `ListDeserializer`, `ObjectDeserializer`, `ValueDeserializer`, serde's `MapDeserializer`, `from_slice` |
| `TargetWorld.v` | serde's own implementations for the standard and derived types as such programs |
| `Derive.v` | what `derive(Deserialize)` generates for a struct with attributes, as such a program (its specification is in the same file) |
| `Made.v` | the values that a Rust program can build itself |
| `Widening.v` | which types are wider than others, and when two results are the same value in two types |
| `Untyped.v` | messages without type information, and with every type replaced by Object |
| `ArrayForms.v` | messages with their arrays written in other records |
| `Rewriting.v` | the changes that a message may undergo |
| `Parts.v` | the parts of a message, the facts of a result, which part states which fact |
| `Frugal.v` | implementations of `Deserialize` that make nothing up |
| `Content.v` | how much a message says: the content of a value in bytes |
| `EqualData.v` | when two results of `from_slice` are equal (Rust's `==`) |
| `Display.v` | `error.rs` (`Display`), `record/mod.rs` and `enumeration.rs` (`description`), the text of `from_slice`'s parse errors |
| `Equality.v` | the derived `PartialEq` of `Value`, `Object`, `DateTime`, `TimeSpan`, `Decimal`, `MethodCall`, `MethodReturn`, `RemotingMessage` |
| `Work.v` | `binary_parser/mod.rs` once more, with an account of the work |

Every definition cites the lines it models.  Results are data: `Ok rest a`,
`Err e` (nom::Err::Error), `Fail e` (nom::Err::Failure), `Panic site`, `Diverge`
(fuel exhausted: excluded by C01 for the fuel `parse` uses).  `&mut self` becomes
a state that is returned in *every* case, so what a failed alternative leaves
behind in the tables is visible to the next alternative, as in the code (this is
how the finding of C48 came out).

`RepoTests.v` runs every assertion of every file in `/repo/tests` on the model
(by computation): all hold.  These are tests of the model, not claims.

### Simplifications
* `usize` is 64 bits.
* `f32`/`f64` are their IEEE bit patterns; `==` on them (`Equality.v`) is the IEEE comparison, computed from the bit patterns.
* `==` of `rust_decimal::Decimal` is taken to be numerical.
  Rust's `as` casts to and between floats are arbitrary functions (type class
  `FloatLib`); every theorem is quantified over them.
* `rust_decimal::Decimal::from_str` (and `to_string`) is an arbitrary function
  (type class `DecimalLib`); every theorem is quantified over it.
* `HashMap` is an association list without duplicate keys; iteration order is
  the order of first insertion (Rust: unspecified; C49 proves that no observable
  result depends on it).  `BTreeMap` is std++ `gmap` (ids) or a sorted list (C51).
* `nom::Err::Incomplete` is not modelled: only `complete` primitives are used.
* `Serde.v` reduces serde's error texts to an error constructor; `Visitors.v` has the texts of all errors made by the
  crate and by serde's deserializers, except that the texts of errors of serde's own implementations for primitive types
  (met inside the wrapper classes) are an arbitrary function (type class `TextLib`; every theorem is quantified over it).

### Not modelled
* memory exhaustion, stack overflow, allocation failure, running time (only the number of record parser calls and consumed bytes, `Work.v`);
* `Debug` and `Clone` implementations, and `PartialEq` of crate-internal types;
* `Deserialize for data_type::Decimal` (not reachable through the public API);
* the serde attributes `flatten`, `tag`, `untagged` as such: the implementations they generate are covered by
  C64-C68, which hold for every implementation, but are not written down (`rename`, `alias`, `default`, `skip`,
  `deserialize_with`, `deny_unknown_fields` are, see C79);
* the behaviour of nom, serde and core beyond what is written down in `Base.v`,
  `Utf8.v` and `Serde.v` (their sources are not in the sandbox; their documented
  behaviour was used).

## 2. Specification side

* `Wire.v`: encoders written from the format's point of view (little endian,
  7-bit groups, UTF-8, record layouts).  No parser function occurs in it.
* `Delimited.v`: the rules of `Grammar.v`, except that no cut-off library record may stand where
  a library record may stand.
* `Tokens.v`: messages as sequences of tokens (records without the members that follow them), the rules of
  `Grammar.v` on such sequences, and the renaming of ids.
* `Blocks.v`: the ids that a token names or declares, records as blocks of tokens, independence of blocks, and
  `mentions`: the four bytes of an id occur in the input.
* `Relabel.v`: the replacement of names and values in tokens and in results.
* `Declared.v`: the values of a declared member type.
* `Placement.v`: the libraries of a token list and the list without them.
* `Nulls.v`: runs of nulls in the arrays of a message, and their replacement.
* `Received.v`: which Rust values the format has a source for.
* `Dates.v`: the bytes of a .NET `DateTime`.
* `Grammar.v`: a declarative inductive grammar "input = record bytes ++ rest,
  value, tables before/after" built on `Wire.v` only.  `g_message W m`: the bytes
  `W` are a message with the content `m`.
* `Spec.v`: sub-values, strings inside a message, slices, ranges.
* `Positions.v`: positions in a message.  `after W root e i`: `W` is a header with
  this root id, then complete records (in the sense of the grammar) that leave the
  tables `e`, then `i`.  `inside`: the same for positions within a record.
* `Stops.v`: where reading a record stops because it is not well-formed, whether this is reported or
  the record is given up, and which libraries and objects it leaves behind; from this `accepts W m` (all
  accepted messages, including the ones that use leftovers) and `expects W e i` (where records are looked for).
* `VisitorSpec.v`: what an arbitrary implementation of `Deserialize` gets from a value (`gets`, `visits`, `message_gets`), and which
  implementations come to an end (`ends`) and follow serde's protocol (`orderly`).
* `Blame.v`: which error (kind and position) a message that is not well-formed is refused with: the flaws of
  the fixed-format parts, of the nested records (on top of `Grammar.v` and `Stops.v`), and `refuses W er`.
* `Trees.v`: values that contain no references or null runs, with their bytes.
* `SerdeSpec.v`: wrapper classes, integer ranges, lists, equality up to member
  order, sorted maps.

Props*.v and Size.v hold the property theorems (names `Cnn_...`), each group
with an `Example Cnn_ex...` that meets the hypotheses; `Cnn_..._refuted` theorems
disprove the full property of the model by a concrete message, and
`Cnn_..._partial` prove the part that holds.

## 3. Properties and how they are proved

See properties.jsonl for the text, MANIFEST.json for status and theorem names.

* C01 termination: fuel = 2*length+2; induction on fuel with "every record consumes a byte" (Fuel.v, Safety.v).
* C02 panics: `_refuted` witness; `unreachable!()` excluded by an invariant on
  parsed type infos; null-run necessity by induction (Safety.v); the exact set of panicking inputs by
  tracing a panic back through the parser to a `ragged` array and forward again (Ragged.v, Panics.v, PropsO.v).
* C03, C04, C14, C29: decision lemmas on the header/id/length/null parsers lifted
  to `parse` through positions (LemmasD.v, Reach.v).
* C05: two `_refuted`; suffix-independence of derivations of Delimited.v (the grammar without cut-off library records; LemmasB.v), and Calm.v for accepted messages (PropsN.v).
* C06, C07, C11, C36: one invariant over all values/tables/errors, by induction on fuel (SafetyLemmas.v, Safety.v).
* C08, C09: bit-level reader vs. 7-bit group spec; UTF-8 checker vs. encoder of scalar values (Utf8Lemmas.v, DataTypesLemmas.v).
* C10, C12, C13, C15, C16: encode/parse round trips through the grammar; C12 also the rejection of malformed
  primitives at every kind of position (PropsP.v, through Positions.v).
* C17..C24: history properties from the grammar equivalence; violated ones by witness and by a universal rejection theorem.
* C25..C28, C30: array/class shape theorems, `_refuted` witnesses; C28 by a potential function over derivations (Size.v), and for all accepted messages by induction over the parser: the bytes from a position on pay for all objects it can leave in the table from there (Leftover.v).
* C31..C35: decision tables lifted to `parse` (MethodLemmas.v, PropsE.v).
* C37: arithmetic on all 64-bit values.
* C38: universal rejection theorem.
* C39: soundness by induction on fuel (Sound.v), completeness by induction on derivations (Complete.v, Message.v), Calm.v for the exact part.
* C40: an explicit family of messages, by induction on the depth; the upper bound by a potential function over derivations (Depth.v), and for what abandoned records leave behind as in C28 (Leftover.v, PropsV.v).
* C41..C47, C49..C53: theorems about `Serde.v` by induction on values, on closed forms of serde's loops (SerdeLemmas.v).
* C54: `inner_text` is injective on the enumeration of all kinds; an invariant over all parser functions (ErrorKinds.v) says which kinds they fail with, and a message is exhibited for each of these.
* C55: an encoder relation built from the grammar (Transmit.v: libraries first, each with an empty object; then the value with untyped members, inner arrays as references), by induction on values; the converse from the safety invariant.
* C56: a rule set `reads` for values, types and results (Reading.v, not mentioning the deserializers); both directions by induction on the nesting of the value, with the closed forms of the sequence and map loops (SerdeLemmas.v, PropsH, PropsI).
* C57: from C56 by induction on the value, with C07 and C11 for the strings, chars and names.
* C58: by cases on the outcome of parsing.
* C59: the derived `==` (`Equality.v`) is compared with an inductive definition of equality (`EqualitySpec.v`) in which a float
  is the number it stands for: the bit comparison is correct because a float's magnitude determines its exponent and mantissa;
  structural induction for the rest. Reflexivity, symmetry, transitivity and independence of the member order are then
  properties of the specification.
* C48: `_refuted` witness; partial by Calm.v; the exact condition from Stops.v.
* C60: the parser's two kinds of errors are exactly the stops of Stops.v: from the parser to the rules by induction on fuel,
  back by induction on derivations (StopsLeaf.v, Quits.v); with this C39, C48 and C02 get exact statements (PropsQ.v).
* C61: a target type `T_any` whose visitor accepts everything; its rules in `Reading.v` are shown to be the relation `describes` (PropsR.v).
* C62: for every primitive parser `p`, `p i = Fail er <-> flaw_p i er` (BlameLeaf.v); the rules for records are run by induction on
  derivations (Blames.v), and every stop of Stops.v that is reported has an error in the rules, so by determinism these are
  all errors; the end of the message by cases (BlameMessage.v, PropsS.v).
* C63: a second copy of the methods of Parser.v that also adds up the calls of record parsers and the bytes they consume (Work.v);
  the copy computes the same results (Worked.v); a budget of 40 per byte by induction on the fuel, using that a record type byte
  selects at most one alternative (WorkBound.v); every consumed byte is paid for (WorkLower.v, PropsT.v);
  the account with a higher price for the calls that give up is compared with the plain one call by call (WorkPrice.v).
* C64: implementations of `Deserialize` are arbitrary programs against serde's traits (Visitors.v); rules without counters and step
  bounds (VisitorSpec.v); the deserializers follow them by induction on the steps (VisitorLemmas.v), and every derivation is
  run by induction on it (VisitorComplete.v); the types of Serde.v as programs give the results of Serde.v by
  induction on values (TargetLemmas.v, PropsU.v).
* C65: a measure of nested options, remaining elements and patience (VisitorEnds.v); an invariant on the pending value.
* C66: inversion of the rules, which demand that nothing is left.
* C67, C68: the texts are part of the rules; what is left over and the number of answers are related by induction on derivations.
* C69: derivations over tokens correspond to derivations over bytes, and are closed under renaming (TokenLemmas.v).
* C70: two runs of the parser from tables that agree on the ids in the remaining input (Agree.v), by induction on the fuel.
* C71: a frame rule for derivations over tokens (BlockLemmas.v): a block neither sees nor changes what it does not name.
* C72: derivations over tokens are closed under relabelling (RelabelLemmas.v).
* C73: a message is constructed for every value by induction over it (C55, C56); the converse by induction over the rules of Reading.v.
* C74: arithmetic on the 62 + 2 bits, with C10 and C43 for the message around them.
* C75: the position of the method record is determined (g_record_det), and its parser is exact; the rest from C33 and C34.
* C76: a simulation between derivations over tokens that differ in one array (NullLemmas.v).
* C77: derivations of the member around the ones of trees before and after it; rejections from C31, C38 and `reach_stuck`.
* C78: derivations over tokens are deterministic; a derivation stays one when the libraries are stripped and put into the initial table (`PlaceLemmas.v`).
* C79: the generated visitor's run over the members is a fold (`DeriveLemmas.v`), which is compared with the promise for each field; then C64 and C65.
* C80: C59 says what `==` means and C56 what is read; by induction on the value (`EqualReads.v`) equal values are read as equal data.
* C81: the proofs of C56, C57 and C64 only use that names are distinct, numbers in range and strings UTF-8, which holds of every Rust value (`Made.v`).
* C82: by induction on the value and the wider type, from the rules of Reading.v.
* C83: from the rules for structs and C82 for each field; the other members can be skipped because whatever is read as a type without structs can.
* C84: on tokens (as C69): forgetting types preserves what the tokens mean, by induction over their meaning; then the completeness of the parser for all messages of the format, whose condition (C15) holds trivially as no bare member values are left.
* C85: on tokens (as C69): by induction over the meaning of the tokens, the rewritten tokens mean the same; each array record is taken apart and put together again in its other form (for single nulls the number of items is the length in both); then the completeness of the parser.
* C86: every single change preserves what the tokens mean (the lemmas behind C69, C71, C76, C78, C84, C85, for C71 with the determinacy of the meaning); induction on the number of changes; then the completeness of the parser for the last message only.
* C87: from the rules of Reading.v (C56), by induction on the value: items and members are read at most once each; the members that the fields of a struct are read from are different ones because the field names are; for all implementations by induction over the rules of VisitorSpec.v (C64), with what a visitor knows so far as the invariant.
* C88: a potential argument as for C28 (Size.v, Leftover.v): the content of the objects in the table and the bytes still to be read together never grow; a record that is given up leaves no more behind than its bytes can pay for; for the results of from_slice with C87.

None of the properties is inexpressible in the model.  Stack overflow (the
run-time face of C40) and memory exhaustion (of C28) are outside the model: only
the logical growth statements are proved.

## 4. Findings (the code violates the property)

| Property | Witness / theorem | What happens |
|---|---|---|
| C02 | `C02_never_panics_refuted` | a 2x2 BinaryArray with a null run that overshoots panics in `drain` |
| C05 | `C05_prefix_free_refuted_without_libraries` | a record given up for lack of bytes leaves its objects behind, and the message is read on with them; with more bytes the record is complete |
| C05, C15 | `C05_prefix_free_refuted`, `C15_silently_changed` | a primitive member whose first byte is 12 is read as a library record |
| C13 | `C13_non_ascii_refuted` | Char is one Latin-1 byte |
| C18 | `C18_library_before_array_refuted` | a library in front of an array is "a duplicate" |
| C19 | `C19_class_reuse_refuted` | ClassWithId is always rejected |
| C20 | `C20_duplicate_ids_refuted` | later object with the same id wins silently |
| C22 | `C22_shared_objects_refuted` | the second reference to an object is rejected |
| C25, C30 | `C25_declared_length_refuted`, `C30_own_values_refuted` | overshooting null runs change lengths, shift members |
| C26 | `C26_zero_length_refuted` | lengths 3 x 0 give `[]`, not `[[],[],[]]` |
| C28 | `C28_proportional_refuted`, `C28_quadratic` | 32 bytes give 2^31-1 nulls; quadratic without null runs |
| C32 | `C32_all_rules_refuted` | ReturnValueInline is left out of the return category |
| C38 | `C38_null_string_refuted`, `C38_string_reference_refuted` | String-typed members must be inline strings |
| C39, C48 | `C39_grammar_only_refuted`, `C48_no_trace_refuted` | objects completed inside an abandoned record stay in the table |
| C44 | `C44_size_refuted` | `_size` = items + 1 is accepted |
| C45 | `C45_top_level_refuted` | `from_slice::<Option<T>>` rejects everything but null |
| C47 | `C47_unknown_members_refuted` | an unknown, malformed system object breaks the struct |
| C50 | `C50_transparent_refuted`, `C50_enum_never` | newtype structs and enums cannot be read |
| C68 | `C68_list_refuted` | the length error of a `List<T>` with too few items counts an element that is not there |
| C69 | `C69_renaming_refuted` | another choice of object ids makes a message unreadable (a member that starts with byte 12 in front of the id) |
| C71 | `C71_order_refuted` | independent records in another order are rejected (a member that starts with byte 12 in front of another id) |
| C72 | `C72_relabelling_refuted` | an object is rejected once its Int32 member 13 is replaced by 12 |
| C74 | `C74_dates_refuted`, `C74_right_exactly` | `DateTime::ticks` and `kind` look for the kind in the low bits; .NET writes it in the high bits |
| C75 | `C75_return_value_refuted`, `C75_array_lost`, `C75_array_rest_lost` | a return value (exception, context, ...) in the call array is dropped |
| C76 | `C76_binary_array_refuted` | a run of nulls in a BinaryArray is taken for one element |
| C77 | `C77_reference_refuted`, `C77_null_refuted` | a member declared with a class (or as a string) cannot be a reference, and one declared as a string or an array of primitive values cannot be null; .NET writes nested objects as references |
| C78 | `C78_libraries_refuted` | an Int32 12 followed by a library record is misread, the same message with the library in front is read correctly (consequence of C15) |
| C80 | `C80_decimal_refuted` | a Decimal is read as its text, so the equal decimals 1.0 and 1.00 are read as different strings |
| C83 | `C83_fields_refuted` | leaving out a field makes from_slice fail: an object of a wrapper class or List<T> with other members can be read as a struct, but not skipped |
| C85 | `C85_runs_refuted`, `C85_12_refuted` | an array that is read from an ArraySingleObject (ArraySinglePrimitive) record is rejected as BinaryArray: if it has a run of nulls, or the number 12 followed by 1 |
| C88 | `C88_factor_needed` | a message can say more than its bytes: an object that a failed attempt at a record left behind is referenced, and the bytes are read again and referenced again |

## 5. Trusted base

* Coq's kernel (8.16.1), including `vm_compute` for the witnesses and examples.
* `Print Assumptions` on every property theorem says "Closed under the global
  context": no axiom at all, neither of the standard library nor of the project.
  `Assumptions.v` prints it for all of them at once during the build.  The loaded
  libraries contain the fields of `Coq.ssr.ssrunder.Under_rel` (a module of the
  ssreflect part of the standard library, loaded by std++), which `coqchk` lists
  as axioms; no theorem depends on them.
* The reading of `/repo/src`, of nom 8, of `core::str::from_utf8` and of serde that
  the model embodies (section 1), and the parameters `DecimalLib`, `FloatLib`, `TextLib`,
  over which every theorem is universally quantified.

## 6. Testing the theorems

`seeded/LOG.jsonl` records the deliberate bugs put into a copy of the model and
which theorems failed to prove for each.
