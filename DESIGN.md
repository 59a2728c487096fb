# Formal model of Marcono1234/struson in Rocq (Coq 8.16.1)

This file is the plan and the statement of the trusted base.  The list of
properties is `properties.jsonl`; the status of each is in `MANIFEST.json`.

## 1. Layers of the model

| File (rocq/theories) | Models | Kind |
|---|---|---|
| `Base.v` | bytes, text, outcome types | definitions |
| `Utf8Model.v` | `src/utf8.rs`, `str::from_utf8`, `char::encode_utf8` | executable model |
| `NumberModel.v` | `src/json_number.rs` | executable model |
| `WriterModel.v` | `src/writer/stream_writer.rs`, the `Write` sink | executable model |
| `SourceModel.v` | byte buffer of `src/reader/stream_reader.rs` (`fill_buffer`, `peek_byte`, `BytesValueReader`) over a schedule of `Read::read` results | executable model |
| `ReaderModel.v` | rest of `stream_reader.rs`, `seek_to`/`seek_back` of `reader/mod.rs` | executable model |
| `TransferModel.v` | `transfer_to` (`reader/mod.rs`, `stream_reader.rs`) between a reader and a writer | executable model |
| `ClientModel.v` | programs which use a `JsonReader` through its calls (clients of the reader) | executable model |
| `SimpleModel.v` | `reader/simple.rs`, closures are programs | executable model |
| `WClientModel.v` | programs which use a `JsonWriter` through its calls | executable model |
| `SimpleWriterModel.v` | `writer/simple.rs`, closures are programs | executable model |
| `SerModel.v` | `serde/ser.rs`, implementations of `Serialize` are programs | executable model |
| `DeModel.v` | `serde/de.rs`, implementations of `Deserialize` and `Visitor` are transition systems | executable model |
| `DebugModel.v` | `Debug` implementations of the reader and the writer | executable model |
| `DisplayModel.v` | `Display` implementations of positions and reader errors | executable model |
| `ErrorTextModel.v` | `Display` implementations of the errors of copying, serializing and deserializing | executable model |
| `IntegersModel.v` | `next_number` for integer types, `as_u64`, `as_i64` | executable model |
| `Spec*.v` | specifications, independent of the models (see 1.3) | specification |
| `Props*.v` | only the property theorems, `Example`s, `Print Assumptions` | statements |
| `Tests*.v` | the unit tests of the repository, as `Example`s about the models (they test the models, they prove no property) | tests |
| all other files | lemmas; `*Final*.v` contain the proof of each property theorem as `<name>_holds` | proofs |

### 1.1 Reader

Every reader function is a program (`prog`, a tree of byte-level operations
`peek`, `skip`, `value-new/peek/consume/skip-previous/push/get`) with the
`JsonStreamReader` fields threaded through as a state.  The tree has two
interpreters:

* `crun`: the real buffer, `buf[1024]`, `buf_pos`, `buf_end_pos`,
  `buf_used_for_bytes_value`, `reached_eof`, `value_bytes_buf`, the fields of
  `BytesValueReader`, and a schedule of `Read::read` results (data of any size,
  `Interrupted`, errors, end of file);
* `arun`: the plain list of bytes that are still to be read.

One refinement theorem (by induction over the tree, hence for every program
that uses the reader) shows that both give the same result.  All other
theorems are proved for `arun` and transported.

Loops take explicit fuel and return `OutOfFuel` when it is exhausted; a
theorem shows that fuel linear in the input length is always enough, so the
value never occurs in the statements' range.

`panic!` is an explicit outcome, in two flavours: `Misuse` for the documented
"Incorrect reader/writer usage" panics, `Bug` for everything else (`unwrap`,
`unreachable!`, index out of range, debug assertions).

### 1.2 Writer

Writer functions are state transformers over the writer fields and a sink that
follows a schedule of responses to `Write::write` (accept n bytes, accept 0,
`Interrupted`, error).  `write_all` of the standard library is modelled by
its documented loop.

### 1.3 Specification

`SpecJson.v`: data trees (`json`), the grammar as an inductive relation between
a tree and its texts, parameterised by the two syntax settings.
`SpecCursor.v`: what a reader program sees when it walks a tree - the reference
for all reader calls, no text involved.
`SpecNumber.v`: number grammar.  `SpecWriter.v`: documents described by writer
calls, layout of the output.  `SpecRead.v`: read results as data.
`SpecSessions.v`: sessions, i.e. sequences of reader calls with their results.
`SpecText.v`: positions (line, column, byte) and decoding of a text.
`SpecErrors.v`: which error a text causes and where.  `SpecStrip.v`: removal of
comments and trailing commas.  `SpecTransfer.v`, `SpecSimple.v`,
`SpecSimpleWriter.v`, `SpecSer.v`, `SpecDe.v`: tree semantics of the respective APIs.
`SpecCost.v`: the number of operations on the buffer and the bytes not yet consumed.
`SpecTypes.v`: Rust types, their values, and what derived `Serialize` and `Deserialize`
implementations do with them (client code of serde, not part of /repo).

### 1.4 Layers of the proofs

* Reader: `SourceProofs` (both interpreters agree) - `ReaderScan`, `ReaderLex`,
  `ReaderLexStr` (loops) - `ReaderMid`, `ReaderAgree`, `ReaderSess` (a reader whose
  tokens are spans of the text) - `ReaderGrammar`, `ReaderSafe` - `ReaderRepr`,
  `ReaderForward`, `ReaderSkip`, `ReaderSeek`, `ReaderWalk`, `ReaderCursor` (simulation of the
  cursor) - `ReaderBack`, `ReaderErrs`, `ReaderKinds*` (what is concluded from results and
  errors) - `ReaderErase`, `ReaderOut`, `ReaderRelax`, `ReaderPeek`, `ReaderWays*`, `ReaderText`,
  `StripProofs` (comparison of runs) - `ReaderFinal*`, `PropsReader*`.
* Writer: `WriterProofs`, `WriterDocProofs`, `WriterStringProofs` - `WriterSession` (one
  call) - `WriterRun`, `WriterSafe`, `WriterMore` - `WriterFinal`, `PropsWriter`.
* Transfer, simple reader, simple writer, serializer, deserializer: `Transfer*`, `Simple*`,
  `SimpleWriter*`, `Ser*`, `De*`, on top of the two.

The properties were planned before the proofs; C41 and later were appended when the
model had grown.

## 2. Plan per property

| Property | Model | Proof |
|---|---|---|
| C01 number grammar | NumberModel | case analysis + induction on digit runs, both directions |
| C02 invalid number has no effect | WriterModel | direct on the model for every state |
| C03 reader numbers | ReaderModel | induction on digit runs, exact characterisation of success and of each failure |
| C04 UTF-8 | Utf8Model, ReaderModel | bit masks by finite sweep over 256 bytes lifted by lemma; induction over characters |
| C05 string decoding | ReaderModel | induction over pieces; inversion for rejection |
| C06 all string readers agree | ReaderModel | simulation between the two decoding loops |
| C07 string reader buffer sizes | ReaderModel | invariant over read calls |
| C08 sticky errors | ReaderModel, WriterModel | invariant over calls |
| C09 string round trip | WriterModel + ReaderModel | per character, then induction |
| C10 escape settings | WriterModel | per character, then induction |
| C11 string writer chunking | WriterModel | invariant over write calls |
| C12 documents are valid | WriterModel | refinement to a tree-building automaton |
| C13 misuse detection | WriterModel | same automaton |
| C14 sink behaviour | WriterModel | invariant: emitted = sink ++ buffer; for programs, the simple API and the serializer by induction over the program (PropsSinks.v) |
| C15 write-read round trip | both | C12 + C20 |
| C16 pretty printing | WriterModel | C12 for both settings, whitespace erasure |
| C17 read schedules | SourceModel | refinement by induction over `prog`; for programs which decide on the next call by the results so far, for the simple API and for `transfer_to` with any writer: those never get stuck, whatever the input is, and only the supplied bytes decide (PropsDelivery.v) |
| C18 I/O errors | SourceModel | same refinement with failing tail |
| C19 soundness | ReaderModel | inversion by induction on fuel; for the simple API from the last call of a run which succeeds (PropsAccept.v) |
| C20 completeness, layout independence | ReaderModel, SpecCursor | simulation with the cursor, induction over client programs |
| C21 only misuse panics | ReaderModel | state invariant preserved by every call |
| C22 peek/has_next | ReaderModel | direct + commutation with later calls |
| C23 recoverable errors | ReaderModel | direct + commutation with later calls |
| C24 nesting limit | ReaderModel | invariant |
| C25 positions | ReaderModel, SpecText | invariant: position = that of the consumed prefix of the text |
| C26 path | ReaderModel | relation with the cursor |
| C27 track_path | ReaderModel | simulation between two settings |
| C28 skip_value | ReaderModel | cursor simulation + inversion |
| C29 seek | ReaderModel | cursor simulation |
| C30 skip_to_top_level | ReaderModel | cursor simulation |
| C31 error kinds of skip_to_top_level | ReaderModel | expected to be false (MaxNestingDepthExceeded): refuted + what does hold |
| C32 consume_trailing_whitespace | ReaderModel | expected to be false after has_next/peek with multiple top-level values: refuted + what does hold: exact for one value, and for several values behind a call which has read or skipped an element (SeveralFinal) |
| C33 transfer_to | Reader + Writer | cursor simulation + writer automaton |
| C34 multiple top-level values | ReaderModel | cursor simulation |
| C35 comments, trailing commas | ReaderModel | grammar is parameterised; C19/C20 + rejection lemmas |
| C36 termination, linear cost | ReaderModel, SpecCost | the fuel is never exhausted; logic with time credits over the programs of the model: an operation costs one credit, consuming a byte yields 24, a peeked token holds 18 |
| C37 simple reader sticky errors | SimpleModel | induction over closure trees |
| C38 simple reader skipping | SimpleModel | induction over closure trees; the limit of the rounds of loops does not matter (SimpleRounds.v), so the converse holds for every input (PropsAccept.v) |
| C39 read_seeked_multi | SimpleModel | refinement to tree search |
| C40 simple writer | SimpleWriterModel: closures as programs over the calls of WriterModel | invariants: a level of open containers which can no longer be completed; refinement to C12 |
| C41 limits | ReaderModel | comparison of two runs, by induction over the program |
| C42 serializer | SerModel, SpecSer | mutual induction over the relation between values and their data, refinement to C12 |
| C43 element counts | SerModel, SpecSer | C42 + induction over the list of elements |
| C44 map keys | SerModel, SpecSer | C42 + table of key names |
| C45 deserializer | DeModel, SpecDe | mutual induction on fuel over the deserializer and its tree semantics, on top of the cursor of C20 |
| C46 deserialized input is valid | DeModel | log of the calls + C19 + C45 |
| C47 nesting limit and panics of the deserializer | DeModel | invariant on the calls and the depth, for arbitrary code and input; comparison of the tree semantics for two limits |
| C48 serde round trip | SerModel, DeModel, SpecTypes | induction on values at the level of data (`RoundTrip*.v`), then C42, the writer's layout and C45 |
| C49 read_deserialize | SimpleModel, DeModel, SpecSimple, SpecDe | the method is one more case of C37 and C38: C45 in the logic for simple programs; the log of an error-returning deserializer |
| C50 write_serialize | SimpleWriterModel, SerModel, SpecSimpleWriter, SpecSer | one more case of C40: C42 in the logic for simple writer programs; the log of the serializer for an implementation which aborts after an error; a stored error is reported by every method |
| C51 positions are within the input | ReaderModel, SpecPositions | logic with credits as for C36: a call only advances a counter by what it consumes or has peeked |
| C52 no input behind what is consumed is needed | ReaderModel, SourceModel, SpecLook | logic which tracks whether the byte behind the consumed ones has been looked at; frame theorem for the specified source, and a simulation which keeps the unread events of the modelled source |
| C53 memory for reading is bounded | ReaderModel, SourceModel, SpecMemory | `throughout`: a predicate on the buffers at every moment of a run; a logic for programs which collect nothing; a logic with an automaton which runs along the bytes consumed since a value was started, and a simulation which relates it to the input |
| C54 buffering of the writer | WriterModel, SpecBuffer | a relation between the buffers and counters of the sink before and after each function; invariant of C12 for the text |
| C55 `Debug` output | DebugModel, SpecDebug | the position never passes the end of the buffer (invariant of all runs, also after IO errors); the text of the writer is UTF-8, so a suffix of it is text after at most three bytes; the content after an IO error is refuted |
| C56 texts of positions and errors | DisplayModel, SpecDisplay | the fixed parts of the texts are taken off from both ends, where no name or message can imitate them; numbers are spans of digits; the paths of names with dots are refuted |
| C57 integers | IntegersModel, SpecIntegers | a number text is an integer text, or the parser meets a character which it refuses; the digits written have the value of the integer (decimal texts, C13); reading by the cursor (C17) |
| C58 copying from any input | TransferModel, SpecReformat | the invariant of C21 is kept by every step of `transfer_to` (TransferBack), and acceptance is traced back to the start as for C24; for documents the forward proof of C33, up to the first rejected number (TransferUnread) |
| C59 panics because of usage | ReaderModel, SpecUsage | what the client knows (open containers, name expected, unfinished string reader) equals the corresponding part of the reader's state after every call; in each such state the checks of the code are those of SpecUsage, also inside of the loops of skipping and seeking (ReaderUsage, UsageRun) |
| C60 simple reader and panics | SimpleModel, SpecOrderly | the calls of every client are allowed in the sense of SpecUsage for all possible outcomes (ClientUsage); by mutual induction over methods and closures each method takes the reader from before a value to behind it, or has kept an error, or ends with an error of a closure (SimpleOrderly) |
| C61 deserializing and panics | DeModel, SpecOrderly | the same for the deserializer by induction over the number of steps (DeOrderly); code which ignores the error for a missing variant value gets no result (AcceptFinal) |
| C62 simple writer, serializer and panics | SimpleWriterModel, SerModel, SpecOrderlyWriter | by mutual induction over methods and closures each method makes only calls which are allowed for the document written so far, and either adds a value to it, or has kept an error, or ends with the own error of a closure (OrderlyWriterRun); for values it follows from the meaning of values, which is never a panic if keys and values alternate |
| C63 copying between reader and writer in use | TransferModel, SpecUsage, SpecWriter, SpecCopy | induction over the loop of transfer_to: the containers opened in the reader and those opened in the document correspond, so each call is allowed on both sides (TransferUsage); instantiated with the stream writer and with a recording of an arbitrary writer (CopyUsageFinal) |
| C64 simple writer to simple reader | SimpleWriterModel, SimpleModel, SpecSimpleWriter, SpecSimple, SpecSimpleTrip | composition of C40 and C38 with the fact that the layout of a value is a text of the grammar for every reader setting; for the tree-building program induction over the nesting of the data; for derived Serde implementations the facts of C48 (SimpleTripFinal) |
| C65 results depend on earlier calls only | ClientModel, SpecPrograms | induction over the program and over the list of calls; used to lift C18, C20, C27, C35 and C41 from sequences of calls to programs and to the simple API (PropsPrograms.v) |
| C66 texts of the other errors | ErrorTextModel, SpecDisplay | fixed prefixes are taken off; a reader error ends with its position in parentheses, the nesting limit of the deserializer does not |

### 2.1 What turned out to be false

Each has a theorem with a counterexample (`..._refuted...`), and the property theorems say
what holds instead.

* C22, C32: with multiple top-level values allowed, `consume_trailing_whitespace`
  after `has_next` or `peek` does not notice the value which has been peeked.
* C23: `seek_to`, `skip_value` and other composite calls have consumed input when they fail.
* C31: `skip_to_top_level` can also fail because of the nesting limit.
* C37: `read_seeked_multi` with the empty path calls its closure although the reader has
  failed.  An implementation of `Deserialize` used by `read_deserialize` gets the
  reader without protection: if it ignores an error, the reader is used after it.
* C40: an error which a closure of the simple writer makes itself and which the
  enclosing closure ignores does not make later calls fail.
* C50: an implementation of `Serialize` used by `write_serialize` gets the writer without
  protection: if it ignores an error, the writer is used after it and success is reported.
* C48: `Some(x)` with `x` written as `null` comes back as `None`; and a floating point number
  whose text has more than 100 characters (e.g. `1e100_f64`, which is written without exponent) is
  refused by the default `restrict_number_values` of the reader.
* C47: code which goes on after an error of the deserializer (the documentation leaves
  this open) can get `MaxNestingDepthExceeded` for data which is not nested that deep,
  because the depth is not decremented when an error is returned.

## 3. Trusted base

* Coq 8.16.1's kernel (including `vm_compute`).  There are no axioms: `Print
  Assumptions` under every property theorem says "Closed under the global
  context".  (The standard library loads its own `ssreflect`;
  the constants `Coq.ssr.ssrunder.Under_rel.*`, fields of a module type there,
  are used by no theorem.)
* The reading of the Rust code: every definition of the model cites the lines
  it models.
* The Rust standard library as modelled: `Vec`, slices, `str::from_utf8`,
  `char::encode_utf8`, `char::is_control`, `Write::write_all`, `FromStr` for integers.
* serde's `StrDeserializer`, as modelled in `DeModel.v`.

### Not modelled

* Integer widths of counters (`u64` positions, `u32` depth, array index,
  number length): unbounded in the model.  C51 bounds the positions and indices
  which the reader reports by the length of the input, so the array index (`u32`)
  cannot overflow for inputs of less than 2^32 bytes.  For longer ones the code
  panics (debug build) or wraps around (release build).
* Memory allocation beyond the number of bytes in the buffers (C53): capacities of
  vectors, the stack of open arrays and objects, the path.
* `Debug` output apart from the fields about the buffers, the messages within errors (custom errors, invalid numbers, `std::io::Error`), which are parameters of the texts (C56, C66).
* Implementations of the `JsonReader` and `JsonWriter` traits by users.
* Parsing of number text to Rust floating point numbers (`FromStr`; they are
  represented by their text) and formatting of floating point numbers (`Display`).
