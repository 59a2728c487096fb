{"id": "C01", "title": "Number validation is exactly the JSON grammar", "statement": "JsonWriter::number_value_from_string accepts a string (writes it verbatim) if and only if the complete string is a number of the RFC 8259 grammar; every other string is rejected with InvalidNumber.", "quantifier": "every string of any length", "why_tests_cant": "The set of strings is infinite; tests list a few dozen valid and invalid literals.", "anchors": ["src/json_number.rs: consume_json_number, is_valid_json_number", "src/writer/stream_writer.rs: number_value_from_string"]}
{"id": "C02", "title": "An invalid number string has no effect on the document", "statement": "When number_value_from_string returns InvalidNumber nothing has been written, the writer is in the same state as before the call, and writing can continue as if the call had not been made. It does so even in places where a value is not allowed.", "quantifier": "every writer state and every string", "why_tests_cant": "Needs every reachable writer state, not only the ones a test sets up.", "anchors": ["src/writer/stream_writer.rs: number_value_from_string"]}
{"id": "C03", "title": "The reader returns number text verbatim and applies the documented restriction", "statement": "next_number_as_str / next_number_as_string return exactly the bytes of the number in the document. With restrict_number_values they fail with UnsupportedNumberValue exactly when the exponent (leading zeros ignored) has more than two digits or the text is longer than 100 bytes; without it every grammatical number is returned; a malformed number is a SyntaxError.", "quantifier": "every input text, every settings value, every buffer/read schedule", "why_tests_cant": "Number length and digits are unbounded and numbers can straddle any buffer boundary.", "anchors": ["src/reader/stream_reader.rs: read_number_bytes, collect_next_number_bytes", "src/json_number.rs: consume_json_number"]}
{"id": "C04", "title": "UTF-8 validation is exact", "statement": "A string value or member name is accepted only if its unescaped bytes are well-formed UTF-8 (no overlong forms, no encoded surrogates, nothing above U+10FFFF, no truncated sequence); every well-formed sequence is accepted. Rejection is an IoError of kind InvalidData (or IncompleteDocument at end of input). The conversion of already validated bytes to str never panics.", "quantifier": "every byte sequence", "why_tests_cant": "2^32 four-byte combinations and arbitrary concatenations of them.", "anchors": ["src/utf8.rs: is_2byte_start .. is_valid_4bytes, to_str_unchecked", "src/reader/stream_reader.rs: read_utf8_multibyte"]}
{"id": "C05", "title": "String literals decode to exactly the value the grammar denotes", "statement": "next_string on a string literal returns the sequence of characters denoted by RFC 8259 (raw characters, two-character escapes, \\uXXXX, surrogate pairs combined to one character) and fails with a SyntaxError for unknown escapes, bad hex digits, lone surrogates and raw control characters.", "quantifier": "every sequence of string pieces and every byte sequence", "why_tests_cant": "Unbounded strings; interactions of adjacent escapes and multi-byte characters at any offset.", "anchors": ["src/reader/stream_reader.rs: read_string, read_string_bytes, read_unicode_escape_char"]}
{"id": "C06", "title": "All ways to read a string agree", "statement": "next_str, next_string, next_string_reader (read to the end) and, for names, next_name, next_name_owned and skip_name consume the same input, leave the reader in the same state and agree on value and on success or failure.", "quantifier": "every input, every reader state in which the call is allowed", "why_tests_cant": "There are two independent decoding loops in the code; equality has to hold for every input.", "anchors": ["src/reader/stream_reader.rs: read_string, read_string_bytes, next_str, next_string, next_name, next_name_owned, skip_name, StringValueReader"]}
{"id": "C07", "title": "The string value reader does not depend on the caller's buffer sizes", "statement": "Whatever sequence of buffer sizes is used for Read::read on the reader returned by next_string_reader, the concatenation of the returned data is the UTF-8 encoding of the string value; 0 is returned only for an empty buffer or at the end; after the end the JSON reader continues as after next_string.", "quantifier": "every string, every sequence of non-negative buffer sizes", "why_tests_cant": "Infinitely many interleavings of buffer boundaries with multi-byte characters.", "anchors": ["src/reader/stream_reader.rs: StringValueReader::read_impl"]}
{"id": "C08", "title": "Errors of string value readers and writers are sticky", "statement": "Once a read (or write) on a string value reader (or writer) failed, every later call on it fails too; it never delivers data or silently continues afterwards, and the string writer cannot be finished.", "quantifier": "every history of calls after the failure", "why_tests_cant": "Histories after the failure are unbounded.", "anchors": ["src/reader/stream_reader.rs: StringValueReader::read, check_previous_error", "src/writer/stream_writer.rs: run_with_error_tracking, finish_value"]}
{"id": "C09", "title": "Written strings read back unchanged under every setting", "statement": "For every string and every combination of escape settings, parsing the literal produced by string_value / name gives back the same string.", "quantifier": "every Unicode string, all settings", "why_tests_cant": "1.1 million characters and all their combinations; hex and surrogate arithmetic.", "anchors": ["src/writer/stream_writer.rs: should_escape, write_escaped_char, write_string_value", "src/reader/stream_reader.rs: read_string"]}
{"id": "C10", "title": "Escape settings are respected", "statement": "Output of string_value never contains a raw quote, backslash or control character below U+0020 inside the literal; with escape_all_non_ascii the output is pure ASCII; with escape_all_control_chars no character for which char::is_control holds is written raw; characters that need no escape are written verbatim.", "quantifier": "every string, all settings", "why_tests_cant": "Must hold for each of 1.1 million characters in any context.", "anchors": ["src/writer/stream_writer.rs: should_escape, write_escaped_char, write_string_value_piece"]}
{"id": "C11", "title": "String value writer does not depend on chunking", "statement": "For every way to split the UTF-8 bytes of a string into write calls (also in the middle of a character), all calls succeed and the output after finish_value equals that of a single string_value call; if the concatenation of the chunks is not valid UTF-8, some write or finish_value fails and finish_value is never successful.", "quantifier": "every byte sequence, every split into chunks (empty chunks included)", "why_tests_cant": "The number of splits is exponential; invalid data can be spread over any number of chunks.", "anchors": ["src/writer/stream_writer.rs: StringValueWriterImpl::write_impl, write_str, finish_value"]}
{"id": "C12", "title": "Every finished document is valid JSON that denotes the written data", "statement": "If a sequence of writer calls ends with a successful finish_document, the bytes delivered to the sink are a valid JSON document (RFC 8259) whose data is exactly the tree described by the calls, for all settings with at most one top-level value; with a separator configured it is the values joined by the separator.", "quantifier": "every sequence of writer calls, all settings, every sink behaviour", "why_tests_cant": "Call sequences and nesting are unbounded.", "anchors": ["src/writer/stream_writer.rs: begin_object .. finish_document, before_value, before_container_element, on_container_end"]}
{"id": "C13", "title": "The writer rejects exactly the misuses", "statement": "A writer call panics exactly when it is not allowed at that point of the document (value where a name is expected, name outside an object, mismatched or premature end, second top-level value without separator, finish of an incomplete document, any call while a string writer is unfinished); it never panics in a correct usage and never produces a structurally wrong document instead of panicking.", "quantifier": "every history of calls", "why_tests_cant": "All reachable states of the call automaton with unbounded nesting.", "anchors": ["src/writer/stream_writer.rs: before_value, name, end_object, end_array, finish_document"]}
{"id": "C14", "title": "Sink behaviour does not influence the document", "statement": "For every behaviour of the underlying Write (short writes, Interrupted, any number of bytes per call), a successful finish_document implies that the sink received exactly the document, in order, without loss or duplication; if a call failed, what the sink received is a prefix of the document bytes produced so far.", "quantifier": "every document, every schedule of sink responses", "why_tests_cant": "Schedules are unbounded and interact with the 1024-byte buffer.", "anchors": ["src/writer/stream_writer.rs: write_bytes, flush, finish_document"]}
{"id": "C15", "title": "Write then read gives the same data", "statement": "Reading a document that was produced by the writer yields the same tree: same structure, same member order, same names and strings, numbers with identical text.", "quantifier": "every JSON tree, all writer settings, every read schedule", "why_tests_cant": "Composition of two unbounded processes.", "anchors": ["src/writer/stream_writer.rs: JsonStreamWriter", "src/reader/stream_reader.rs: JsonStreamReader"]}
{"id": "C16", "title": "Pretty printing only adds whitespace", "statement": "The pretty printed and the compact output of the same calls denote the same data, and differ only in insignificant whitespace.", "quantifier": "every sequence of writer calls", "why_tests_cant": "Unbounded nesting; indentation level must never underflow.", "anchors": ["src/writer/stream_writer.rs: before_container_element, write_indentation, on_container_end"]}
{"id": "C17", "title": "Reader results do not depend on how the input arrives", "statement": "For every program that uses the reader, the results of all calls (values, errors, positions) are the same for every way the underlying Read splits the same bytes into chunks, with any number of Interrupted errors in between.", "quantifier": "every program using the reader API, every input, every split into reads", "why_tests_cant": "Exponentially many splits, interacting with a 1024-byte buffer that is moved, extended and reused.", "anchors": ["src/reader/stream_reader.rs: fill_buffer, ensure_non_empty_buffer, peek_byte, BytesValueReader"]}
{"id": "C18", "title": "I/O errors are reported, never hidden or replaced by data", "statement": "If the underlying Read fails after delivering some bytes, every call before the failing one has the result it has without the failure, and the call that needed the missing data returns IoError.", "quantifier": "every program, every input, every failure point", "why_tests_cant": "Every crash point of the input stream.", "anchors": ["src/reader/stream_reader.rs: fill_buffer, peek_byte_optional"]}
{"id": "C19", "title": "The reader accepts only valid documents", "statement": "If reading (or skipping) a complete value and then consume_trailing_whitespace succeed, the input is a document of the JSON grammar extended only by the enabled settings (comments, trailing commas), and the data that was read is what the document denotes. With default settings only RFC 8259 documents are accepted.", "quantifier": "every input byte sequence, all settings", "why_tests_cant": "Every malformed input must be rejected.", "anchors": ["src/reader/stream_reader.rs: peek_internal_optional, skip_value, consume_trailing_whitespace"]}
{"id": "C20", "title": "The reader accepts every valid document and its layout is invisible", "statement": "For every document of the grammar (within the nesting limit and number restrictions) every program using the reader sees exactly the results obtained by walking the document's data tree; in particular two documents with the same data but different whitespace, comments, escapes or trailing commas are indistinguishable apart from positions.", "quantifier": "every document, every layout, every program", "why_tests_cant": "Programs, documents and layouts are all unbounded.", "anchors": ["src/reader/stream_reader.rs: all JsonReader methods"]}
{"id": "C21", "title": "The reader panics only for documented misuse", "statement": "No input, read schedule or sequence of calls makes the reader panic except with an 'Incorrect reader usage' panic; no internal unwrap, unreachable!, index or debug assertion can fail, and misuse panics depend only on the position in the document, as documented.", "quantifier": "every input (valid or not), every schedule, every call history in which the caller stops at SyntaxError/IoError", "why_tests_cant": "Reachability over an infinite state space.", "anchors": ["src/reader/stream_reader.rs: map_peeked, consume_peeked, on_value_end, next_name, fill_buffer, BytesValueReader"]}
{"id": "C22", "title": "peek and has_next do not consume and are repeatable", "statement": "peek and has_next can be called any number of times; repeated calls give the same result, and inserting them before another call does not change the result of that or any later call.", "quantifier": "every reader state, every number of repetitions, every continuation", "why_tests_cant": "All states and continuations.", "anchors": ["src/reader/stream_reader.rs: peek, has_next, peek_internal_optional"]}
{"id": "C23", "title": "Recoverable errors have no side effects", "statement": "After UnexpectedValueType, UnexpectedStructure or MaxNestingDepthExceeded the reader is in a state in which every further call behaves as if the failed call had not been made.", "quantifier": "every reader state, every failing call, every continuation", "why_tests_cant": "All states and continuations.", "anchors": ["src/reader/stream_reader.rs: start_expected_value_type, map_peeked, end_array, end_object, before_name"]}
{"id": "C24", "title": "The nesting limit is exact", "statement": "begin_array / begin_object fail with MaxNestingDepthExceeded exactly when as many containers as the configured maximum are open; the number of open containers never exceeds the maximum, also while skipping or transferring.", "quantifier": "every input, every limit, every call history", "why_tests_cant": "Unbounded nesting.", "anchors": ["src/reader/stream_reader.rs: start_expected_value_type, on_container_start"]}
{"id": "C25", "title": "Positions are exact", "statement": "After every successful call the reported byte position is the number of bytes of the input up to the current token boundary, the line is the number of line breaks (LF, CR, CRLF as one) before it and the column is the number of characters since the last line break; after has_next / peek it is the start of the next token (before a skipped comma and whitespace is accounted).", "quantifier": "every input, every call history", "why_tests_cant": "Arbitrary mixtures of line breaks, multi-byte characters, comments and tokens.", "anchors": ["src/reader/stream_reader.rs: skip_to, consume_peeked, read_string, current_position"]}
{"id": "C26", "title": "The reported JSON path is exact", "statement": "With track_path the path reported by current_position is the path of the current position in the document as documented: one piece per open container, the index of the next item for arrays, the last read name (or the placeholder <?>) for objects.", "quantifier": "every document, every call history", "why_tests_cant": "Unbounded nesting and histories.", "anchors": ["src/reader/stream_reader.rs: begin_array, begin_object, next_name, skip_name, on_value_end, on_container_end"]}
{"id": "C27", "title": "track_path has no influence on parsing", "statement": "Turning track_path off changes nothing except that no path is reported.", "quantifier": "every program, every input, every settings value", "why_tests_cant": "Every input and history.", "anchors": ["src/reader/stream_reader.rs: ReaderSettings::track_path, skip_name"]}
{"id": "C28", "title": "skip_value is the same as reading and discarding", "statement": "skip_value succeeds exactly when the next value is well-formed (and within the depth limit), consumes exactly that value, and leaves the reader as if the value had been read completely; numbers are not restricted while skipping.", "quantifier": "every input, every reader state", "why_tests_cant": "Unbounded values.", "anchors": ["src/reader/stream_reader.rs: skip_value, SkippingNumberBytesReader"]}
{"id": "C29", "title": "seek_to and seek_back find the addressed value", "statement": "seek_to with a path succeeds exactly when walking the path in the data tree succeeds and then the reader is positioned at that value (the first member of that name); otherwise it fails with UnexpectedStructure or UnexpectedValueType as documented. seek_back with the same path after consuming the value returns to the point behind the value seek_to started at.", "quantifier": "every document, every path", "why_tests_cant": "Unbounded paths and documents.", "anchors": ["src/reader/mod.rs: seek_to, seek_back"]}
{"id": "C30", "title": "skip_to_top_level closes everything that is open", "statement": "From every position in a valid document skip_to_top_level consumes exactly the rest of the current top-level value.", "quantifier": "every document, every position in it", "why_tests_cant": "Unbounded nesting and positions.", "anchors": ["src/reader/stream_reader.rs: skip_to_top_level"]}
{"id": "C31", "title": "skip_to_top_level fails only with SyntaxError or IoError", "statement": "The documentation states that no errors besides SyntaxError and IoError occur.", "quantifier": "every input and settings", "why_tests_cant": "Every combination of nesting limit and remaining data.", "anchors": ["src/reader/mod.rs: skip_to_top_level (docs)", "src/reader/stream_reader.rs: skip_to_top_level"]}
{"id": "C32", "title": "consume_trailing_whitespace succeeds only at the end of the data", "statement": "consume_trailing_whitespace returns Ok exactly if only whitespace (and comments, if enabled) follows the top-level value(s) consumed so far.", "quantifier": "every input, every call history before it", "why_tests_cant": "Every history, including has_next / peek before it.", "anchors": ["src/reader/stream_reader.rs: consume_trailing_whitespace"]}
{"id": "C33", "title": "transfer_to copies the value", "statement": "transfer_to writes a value with the same data as the one read: same structure, names, strings and the identical number text; the reader continues as after reading the value and the writer as after writing it.", "quantifier": "every document, every reader and writer settings", "why_tests_cant": "Unbounded values; strings are copied in 64-byte chunks.", "anchors": ["src/reader/stream_reader.rs: transfer_to", "src/writer/mod.rs: TransferredNumber"]}
{"id": "C34", "title": "Multiple top-level values", "statement": "With allow_multiple_top_level the reader returns all top-level values in order, has_next reports at top level whether another one follows, and peek at the end fails with UnexpectedStructure(FewerElementsThanExpected); without it a second value can not be read.", "quantifier": "every sequence of values, every layout", "why_tests_cant": "Unbounded sequences.", "anchors": ["src/reader/stream_reader.rs: peek_internal, has_next, is_behind_top_level"]}
{"id": "C35", "title": "Comments and trailing commas are accepted exactly if enabled", "statement": "A document containing a comment (or a trailing comma) is rejected with CommentsNotEnabled (TrailingCommaNotEnabled) if the setting is off; if it is on, the data read is that of the document without them. Comments must be closed, valid UTF-8 and free of control characters.", "quantifier": "every document, every placement", "why_tests_cant": "All placements.", "anchors": ["src/reader/stream_reader.rs: skip_whitespace, skip_to_block_comment_end, skip_to_line_comment_end, peek_internal_optional"]}
{"id": "C36", "title": "Every reader call terminates after bounded work", "statement": "Every reader call returns after at most a number of steps linear in the remaining input; no input makes a call loop forever.", "quantifier": "every input, every call", "why_tests_cant": "Non-termination can not be tested.", "anchors": ["src/reader/stream_reader.rs: skip_to, skip_whitespace, read_string, skip_value, skip_to_top_level"]}
{"id": "C37", "title": "Simple reader API: errors are sticky", "statement": "After any error of the underlying reader, every later read inside the simple reader fails without touching the underlying reader, even if the closure swallowed the error, and the outermost call reports an error. Two exceptions: read_seeked_multi with the empty path only calls its closure (whose reads fail), and implementations of Deserialize for read_deserialize must return the errors they get, as the documentation demands.", "quantifier": "every nesting of closures, every history", "why_tests_cant": "Closures are arbitrary programs.", "anchors": ["src/reader/simple.rs: ErrorSafeJsonReader, read_string_with_reader, SimpleJsonReader::finish"]}
{"id": "C38", "title": "Simple reader API: closures get each item and member exactly once", "statement": "read_array_items, read_object_borrowed_names and read_object_owned_names call the closure exactly once for each item or member and in document order; what the closure leaves unread (name, value, rest of a string) is skipped, so that the enclosing value is completely consumed and the following calls continue behind it. read_array succeeds exactly if the closure has read all items, as documented. The outermost method succeeds only if the document has been consumed completely.", "quantifier": "every document, every closure behaviour", "why_tests_cant": "Closures are arbitrary.", "anchors": ["src/reader/simple.rs: read_array, read_array_items, read_object_borrowed_names, read_object_owned_names, read_value, read_string_with_reader, SimpleJsonReader::finish"]}
{"id": "C39", "title": "read_seeked_multi visits exactly the matching values", "statement": "read_seeked_multi calls the closure once for each value that matches the path with wildcards, in document order, and for no other value; with at_least_one_match it fails if there is none; it fails if the data does not match the path (wrong type, missing non-optional member or index, empty array or object for a wildcard that does not allow it); afterwards the value it was applied to is completely consumed.", "quantifier": "every document, every multi-path", "why_tests_cant": "Unbounded wildcards and documents.", "anchors": ["src/reader/simple.rs: read_seeked_multi"]}
{"id": "C40", "title": "Simple writer API produces complete documents", "statement": "If every closure returns Ok, the simple writer writes a valid document with the data described by the nested calls; a member whose closure writes nothing gets the value null. After an error of the underlying writer (also one which a closure ignores) every later write fails without touching it, and the outermost call reports an error. If the outermost call succeeds, the document is complete and is the described one, whatever the closures did. (For write_serialize, the Serialize implementation must abort after an error, as it has to.)", "quantifier": "every nesting of closures", "why_tests_cant": "Closures are arbitrary.", "anchors": ["src/writer/simple.rs: write_array, write_object, write_member, ErrorSafeJsonWriter"]}
{"id": "C41", "title": "Limits only decide whether a call fails", "statement": "Reading with a larger nesting limit (or none), or without the restriction of numbers, gives the same results, call by call, until a call fails with the error of the stricter setting.", "quantifier": "every program, every input, every pair of limits", "why_tests_cant": "All programs and inputs.", "anchors": ["src/reader/stream_reader.rs: ReaderSettings, start_expected_value_type, read_number_bytes"]}
{"id": "C42", "title": "The serde serializer writes exactly the data the value stands for", "statement": "Serializing a value writes the JSON data which its serde representation stands for (numbers, strings, null for none and units, arrays, objects, variants as a name or as an object with a single member), at any place where a value is allowed and with the configured layout; non-finite numbers, failing implementations of Serialize and incorrect use of the serializers have the documented error or panic. If all calls return Ok then the complete data has been written, whatever the sink did.", "quantifier": "every value of the serde data model with arbitrary nesting and arbitrary Serialize implementations (programs which see the results of their calls), every writer settings, every place in a document, every behaviour of the sink", "why_tests_cant": "Serialize implementations are arbitrary programs and values nest without bound.", "anchors": ["src/serde/ser.rs: JsonWriterSerializer, SerializeSeq, SerializeTuple, SerializeTupleStruct, SerializeTupleVariant, SerializeMap, SerializeStruct, SerializeStructVariant", "src/writer/stream_writer.rs: serialize_value"]}
{"id": "C43", "title": "The announced number of elements is enforced", "statement": "A sequence, tuple, tuple struct, tuple variant, map, struct or struct variant which announces a number of elements can only be serialized with exactly this number; otherwise the error states the expected number and the number of elements which were serialized, an element too many being reported immediately.", "quantifier": "every kind of compound value, every announced and every actual number, every element", "why_tests_cant": "All pairs of numbers, and arbitrary implementations of Serialize.", "anchors": ["src/serde/ser.rs: serialize_element, serialize_field, serialize_key, end, SerializerError::IncorrectElementsCount"]}
{"id": "C44", "title": "Map keys become member names", "statement": "A map is written as object with one member per entry in order, including duplicates. Booleans, integers, finite floating point numbers, characters, strings and unit variants, also inside of Some or newtype structs, have the documented name; every other key is the error MapKeyNotString (InvalidNumber for non-finite numbers). Using serialize_key and serialize_value not alternately panics.", "quantifier": "every map, every key", "why_tests_cant": "Arbitrary keys and sequences of calls.", "anchors": ["src/serde/ser.rs: MapKeyStringSerializer, SerializeMap"]}
{"id": "C45", "title": "The serde deserializer gives the visitor exactly the data of the next value", "statement": "Deserializing the next value calls the visitors with exactly the data of that value: booleans, integers (the exact value, or an error if it does not fit or is not an integer), floating point number texts, strings, bytes, units, options, sequences and tuples with their elements in order, maps and structs with all members in order, variants given as string or object. Wrong types, wrong lengths, elements or members which are not consumed and incorrect use of the access types have the documented error or panic. After a success the value is completely consumed and the reader behaves as after skip_value. deserialize_next does the same with the limit 128, and fails like peek if there is no next value.", "quantifier": "every document, every sequence of reader calls before and after, every implementation of Deserialize and Visitor (as arbitrary state machines) which returns errors it gets, every nesting limit, every delivery of the input", "why_tests_cant": "Implementations of Deserialize are arbitrary programs, and values nest without bound.", "anchors": ["src/serde/de.rs: JsonReaderDeserializer, SeqAccess, MapAccess, MapKeyDeserializer, VariantAccess, UnitVariantAccess", "src/reader/stream_reader.rs: deserialize_next"]}
{"id": "C46", "title": "Successfully deserialized input is a valid document", "statement": "If deserializing a value from some input succeeds, and consume_trailing_whitespace succeeds afterwards, then the input is a JSON document and the result is what its data deserializes to.", "quantifier": "every byte sequence and its delivery, every implementation of Deserialize which returns errors it gets, every nesting limit", "why_tests_cant": "Ranges over all byte sequences and arbitrary implementations of Deserialize.", "anchors": ["src/serde/de.rs: JsonReaderDeserializer", "src/reader/stream_reader.rs: deserialize_next"]}
{"id": "C47", "title": "The deserializer enforces its nesting limit and has no internal failures", "statement": "While deserializing, at no point more arrays and objects are open than the nesting limit (128 for deserialize_next), whatever the Deserialize implementation does, even after errors. For data which is not nested deeper than the limit, the limit has no influence on what can be deserialized (if the implementation returns the errors it gets). For every input, the only panics are those for incorrect use of the deserializer.", "quantifier": "every implementation of Deserialize and Visitor (arbitrary state machines, also such which ignore errors), every limit, every byte sequence and its delivery, every point of the run", "why_tests_cant": "Implementations of Deserialize are arbitrary programs; the claim is about every intermediate state of every run on every input.", "anchors": ["src/serde/de.rs: check_nesting!, JsonReaderDeserializer::new_with_custom_nesting_limit, DeserializerError::MaxNestingDepthExceeded", "src/reader/stream_reader.rs: deserialize_next"]}
{"id": "C48", "title": "Serialized values deserialize to themselves", "statement": "Serializing a value of a Rust type with derived Serialize and Deserialize implementations and deserializing the written bytes as this type gives the same value, wherever the value is in the document, if it has no map key which is not a string, number, boolean, character or unit variant, no Some of something written as null, no float which the number restrictions of the reader refuse, and is not nested deeper than the limits.", "quantifier": "every type composed of booleans, integers, floats, characters, strings, bytes, options, sequences, tuples, maps, all kinds of structs and enums, also recursive types; every value of it; every writer and reader settings; every behaviour of a sink which does not fail; every way in which the source delivers the bytes; every position in a document", "why_tests_cant": "Ranges over all types, all values, all settings and all deliveries; a round trip test covers one type and one value.", "anchors": ["src/serde/ser.rs: JsonWriterSerializer", "src/serde/de.rs: JsonReaderDeserializer", "src/reader/stream_reader.rs: deserialize_next", "src/writer/stream_writer.rs"]}
{"id": "C49", "title": "Simple reader API: read_deserialize", "statement": "read_deserialize gives what the data of the next value deserializes to, with the default nesting limit, also inside of the closures of the other methods; each value is deserialized on its own. If it succeeds the reader is behind the value; if it fails, the enclosing methods fail as well, even if the closures ignore the error.", "quantifier": "every document and its delivery, every implementation of Deserialize which returns errors it gets, every array of values, whatever the closures do with the results", "why_tests_cant": "Implementations of Deserialize and closures are arbitrary programs, over all documents.", "anchors": ["src/reader/simple.rs: ValueReader::read_deserialize, ErrorSafeJsonReader::deserialize_next", "src/serde/de.rs: JsonReaderDeserializer"]}
{"id": "C50", "title": "Simple writer API: write_serialize", "statement": "write_serialize writes the data a value serializes to, at the top level, as item and as member; the complete document is written and flushed if the outermost call succeeds. If the serialization fails its error is returned; also an error which the underlying writer has not reported (such as a wrong number of elements) is kept: all later calls fail without touching the writer, and the enclosing methods fail, even if the closures ignore the error.", "quantifier": "every value (every implementation of Serialize), every nesting of closures around it, every behaviour of the underlying writer", "why_tests_cant": "Implementations of Serialize and closures are arbitrary programs.", "anchors": ["src/writer/simple.rs: ValueWriter::write_serialize, ErrorSafeJsonWriter::serialize_value, write_serialized_member", "src/serde/ser.rs: JsonWriterSerializer"]}
{"id": "C51", "title": "Reported positions and paths are bounded by the input", "statement": "Whatever calls a program makes and whatever they return, the location in every error and every position reported by the reader lies within the input: the byte position is at most the number of input bytes, the line number plus the column number is at most the number of input bytes, and the array indices and the number of pieces of the JSON path together are at most the number of input bytes. So the reader's counters, including the 32-bit array indices, can only overflow for inputs which are longer than the counter's range.", "quantifier": "all inputs, all reader settings, all programs using the reader (also after errors), all reported locations", "why_tests_cant": "A test checks the location of single errors; a counter which is advanced twice or too far on one combination of calls, peeks, skips and seeks goes unnoticed, and inputs of more than 4 GiB which would overflow a counter are not tested.", "anchors": ["src/reader/stream_reader.rs: JsonStreamReader::create_error_location", "src/reader/stream_reader.rs: on_value_end", "src/reader/stream_reader.rs: JsonStreamReader::consume_peeked, current_position", "src/reader/mod.rs: JsonReaderPosition, LinePosition", "src/lib.rs json_path: JsonPathPiece::ArrayItem"]}
{"id": "C52", "title": "The reader does not need input behind what it consumes", "statement": "When a call has read a string or a name, has started or ended an array or object, or has skipped such a value, nothing behind these bytes has been needed: the results of all calls so far are the same whatever the source supplies next (more data, garbage, its end, an error), and the source has not been asked for anything beyond the data which contains the consumed bytes. So a string, array or object can be read completely as soon as its text has arrived. At any other point (after peek or has_next, after numbers and literals) at most six bytes behind the reported position matter.", "quantifier": "all programs of reader calls, all settings, all inputs (valid or not), all ways in which the source delivers them, everything which may follow the consumed bytes", "why_tests_cant": "A test has a fixed input behind the position; that nothing behind it matters is a claim about all continuations, after every sequence of calls, and for every way in which buffers are filled.", "anchors": ["src/reader/stream_reader.rs: JsonStreamReader::peek_byte, ensure_non_empty_buffer, fill_buffer, skip_whitespace, peek_internal, read_string, skip_all_string_bytes, end_array, end_object, next_name, skip_value", "src/reader/mod.rs: JsonReader"]}
{"id": "C53", "title": "The memory for reading does not grow with the document", "statement": "The reader's input buffer never holds more than its capacity of 1024 bytes. The bytes which are collected for a value never exceed the text of one string, name or number of the input, so they do not depend on the length of the document or on how many values have been read. Peeking, opening and closing arrays and objects, reading a string with a string reader and (unless the path is tracked, which needs the names) skipping do not collect anything, however long the skipped strings and numbers are.", "quantifier": "every moment of every program of reader calls (all settings, calls in any order, failing calls included), all inputs (valid or not, of any length), all ways in which the source delivers them", "why_tests_cant": "A test observes the memory for some documents at some moments; a bound which holds for documents of every length at every moment, after every sequence of calls and for every chunking, is a claim about all of them.", "anchors": ["src/reader/stream_reader.rs: JsonStreamReader.buf, value_bytes_buf, READER_BUF_SIZE, BytesValueReader, fill_buffer, start_reading_value, read_string, skip_all_string_bytes, read_number_bytes, skip_name, skip_value, StringValueReader"]}
{"id": "C54", "title": "The writer buffers, and holds back less than 1024 bytes", "statement": "After any successful calls the underlying Write has received all of the document's text so far except for its last bytes, which are less than 1024 (the text so far includes the complete characters of an unfinished string value). After a successful flush of the string value writer it has received all of it, and finish_document delivers the rest; only these two flush the underlying Write, once each. Write::write is called at most once per 1024 bytes of output and once per flush or finish, for a Write which accepts the data it is given. The buffer never exceeds its capacity, also after failures.", "quantifier": "all sequences of writer calls (including failing ones where stated), all settings, all documents of any size and nesting, all sinks (short writes, interruptions, failures)", "why_tests_cant": "A test looks at the output of some documents after finishing them; how much is held back at every moment, for every document and every behaviour of the sink, and the number of write calls for arbitrarily many calls, need all of them.", "anchors": ["src/writer/stream_writer.rs: WRITER_BUF_SIZE, JsonStreamWriter::write_bytes, flush, finish_document, StringValueWriterImpl::flush"]}
{"id": "C55", "title": "Debug output never panics and shows what is buffered", "statement": "Formatting a reader or a writer with {:?} never panics, at whatever moment the client does it, also after errors. Unless the source has failed, the reader shows the beginning of the bytes which it has fetched and which the client has not consumed, as text up to 45 characters or up to the first malformed bytes, and 'reached_eof' only if nothing is left. The writer shows the bytes it holds back, without the middle of long text; as long as all calls succeed all but at most the first three bytes are shown as text, because everything written so far is UTF-8.", "quantifier": "all sequences of reader and writer calls, all documents (valid or not, any bytes), all settings, all sources and sinks including failing ones", "why_tests_cant": "The functions index and slice the buffers at positions which depend on how the source divides the input, on the place where a character is cut, and on the history of the calls; tests look at a few buffers.", "anchors": ["src/reader/stream_reader.rs: Debug for JsonStreamReader, limit_str, fill_buffer", "src/writer/stream_writer.rs: Debug for JsonStreamWriter, limit_str_middle"]}
{"id": "C56", "title": "Texts of positions and errors are unambiguous", "statement": "Two positions with the same text agree in which parts are known, in the line, the column and the position in the data, and in the text of the path; if no member name contains a dot, an opening bracket or a double quote they are equal. Two reader errors with the same text are of the same kind, concern the same types, limit or number, and have the same line, column and byte, whatever the member names and the messages of IO errors contain; without special characters in names, errors other than IO errors are equal.", "quantifier": "all positions and errors, all member names (any characters), all messages of IO errors", "why_tests_cant": "Names and messages are quoted without escaping, so the texts could be ambiguous for some combination of them; tests compare the texts of a few positions.", "anchors": ["src/reader/mod.rs: format_abs_json_path, Display for LinePosition and JsonReaderPosition, ReaderError, JsonSyntaxError, SyntaxErrorKind, UnexpectedStructureKind, ValueType"]}
{"id": "C57", "title": "Integers are read and written exactly", "statement": "next_number for an integer type (i8 to i128, u8 to u128, isize, usize) returns an integer exactly if the text of the number is that of an integer (an optional minus sign for signed types, digits, no fraction and no exponent) which fits into the type, and then this integer; otherwise it returns the error of the parser, and the number has been consumed either way. Integers written with number_value are read back exactly, as any integer type into which they fit. as_u64 and as_i64 give the number itself, exactly if it is in the range of the type.", "quantifier": "all inputs, schedules and sequences of calls, all integer types, all integers, all settings of reader and writer", "why_tests_cant": "The types have up to 2^128 values, and every text of a number could be one; tests use a few values.", "anchors": ["src/reader/mod.rs: JsonReader::next_number", "src/writer/mod.rs: FiniteNumber (use_json_number, as_u64, as_i64), JsonWriter::number_value"]}
{"id": "C58", "title": "Copying a document accepts exactly the valid documents and loses nothing", "statement": "transfer_to ends for every input, also for one which is not JSON or ends with an IO error, without an internal panic. A program which copies a document with transfer_to to a JsonStreamWriter, consumes the trailing whitespace and finishes the writer succeeds exactly if the input is a document in the enabled syntax, within the nesting limit and without rejected numbers; the output is then the layout of this document. Reformatting the output once more, with the syntax extensions disabled, gives the same as reformatting the original document directly. If the document contains rejected numbers, everything before the first of them is copied and the error names it.", "quantifier": "all byte sequences, ways of delivering them and IO errors, all sequences of calls before and after, all settings of reader and writer, all implementations of JsonWriter (for the end of transfer_to)", "why_tests_cant": "The set of inputs is infinite and most of them are not documents; that none of those is accepted and that every document is kept cannot be shown with examples.", "anchors": ["src/reader/stream_reader.rs: transfer_to, consume_trailing_whitespace", "src/writer/stream_writer.rs: JsonStreamWriter"]}
{"id": "C59", "title": "Correct usage never panics and incorrect usage always does, for every input", "statement": "Whether a call of a reader panics because of incorrect usage depends only on the calls made before and their results, never on the input as such. A call which the documented rules allow at this point (values, names, ends of arrays and objects, has_next, seeking, skipping, string readers, trailing whitespace) never panics, even if the input is malformed, ends early or fails with an IO error. A call which they do not allow panics; it is never carried out, and never reported as an error of the input (except by seek_back, which may find a malformed input first).", "quantifier": "all byte sequences, all ways of delivering them and all IO errors, all settings, all sequences of calls up to a failed seek or skip", "why_tests_cant": "A panic for untrusted input is a denial of service; that no input and no sequence of correct calls leads to one cannot be established by trying inputs.", "anchors": ["src/reader/stream_reader.rs: all JsonReader methods", "src/reader/mod.rs: JsonReader (documentation of panics)"]}
{"id": "C60", "title": "The simple reader never panics for closures which follow the documented rules, whatever the input is", "statement": "Whatever the input is (malformed, truncated, failing with an IO error), using a SimpleJsonReader does not panic if the closures pass on the errors which closures inside of them return themselves, call read_name at most once per member and before the value is peeked or read, and use orderly Deserialize implementations. Errors of the reader may be ignored by the closures. The rule about own errors is needed: a closure which ignores the error an inner closure returned by itself, and continues reading, causes a panic for a valid document.", "quantifier": "all byte sequences, all ways of delivering them and all IO errors, all settings, all uses of the simple reader with all (nested) closures which follow the rules", "why_tests_cant": "The closures are arbitrary user code which is combined with arbitrary untrusted input; a panic for one combination is a denial of service.", "anchors": ["src/reader/simple.rs: SimpleJsonReader, ErrorSafeJsonReader, ErrorSafeStringValueReader, read_array, read_object_borrowed_names, read_string_with_reader, read_seeked, read_seeked_multi, SingleValueReader, MemberReader, ArrayReader"]}
{"id": "C61", "title": "Deserializing never panics for code which follows the rules of Serde, whatever the input is", "statement": "Whatever the input is, deserializing a value with deserialize_next, or with a JsonReaderDeserializer with any nesting limit, does not panic if a value may be read at this point, the Deserialize implementation returns the errors it gets and follows the rules of Serde (one method per deserializer, a value is requested after every key). After a success the value counts as read, and calls which are allowed then do not panic. Code which violates the rules can panic for a valid document. For an enum represented by a JSON string, code which never asks for a unit variant gets no result, even if it ignores the errors.", "quantifier": "all byte sequences, all ways of delivering them and all IO errors, all settings, all nesting limits, all calls before and after, all orderly Deserialize implementations", "why_tests_cant": "Deserialize implementations are arbitrary user code (mostly generated) and are combined with arbitrary untrusted input.", "anchors": ["src/serde/de.rs: JsonReaderDeserializer, all Deserializer methods, SeqAccess, MapAccess, EnumAccess, VariantAccess", "src/reader/stream_reader.rs: deserialize_next"]}
{"id": "C62", "title": "The simple writer and the serializer never panic for code which follows the documented rules, whatever the Write does", "statement": "Whatever the underlying Write does (short writes, errors at any point, failing flush) and with all settings, every method of SimpleJsonWriter returns a Result and does not panic if the closures end with an error when a method they called ended with an error which a closure inside made itself, and if the Serialize implementations alternate the keys and values of maps and abort after an error. Errors of the writer may be ignored by the closures. Likewise serialize_value of a JsonWriter returns for such Serialize implementations wherever a value is allowed, and calls which are allowed after the value do not panic. The rules are needed: ignoring the own error of an inner closure, a value without key and ignoring the error for a key each cause a panic although the Write never fails.", "quantifier": "all behaviours of the Write, all settings, all (nested) closures and all Serialize implementations which follow the rules, all calls before and after", "why_tests_cant": "Closures and Serialize implementations are arbitrary user code, and the Write can fail at any byte; the closure may continue in any way after the failure.", "anchors": ["src/writer/simple.rs: SimpleJsonWriter, ErrorSafeJsonWriter, ErrorSafeStringValueWriter, write_array, write_object, write_string_with_writer, MemberValueWriter, ObjectWriter, ArrayWriter", "src/serde/ser.rs: JsonWriterSerializer, SerializeMap", "src/writer/stream_writer.rs: serialize_value"]}
{"id": "C63", "title": "Copying a value between a reader and a writer which are in use never panics, and uses the writer correctly", "statement": "Whenever a value may be read from the reader and a value may be written with the writer, transfer_to does not panic, for every input (also malformed or truncated input and IO errors) and every behaviour of the Write. It only makes calls of the writer which are allowed one after the other, also if it ends early and for every implementation of JsonWriter; if it succeeds it has written exactly one value, the reader counts the value as read and the writer as written, so correct calls afterwards do not panic. Where no value may be read transfer_to panics without calling the writer; where no value may be written it panics, unless the reader reports an error before anything is written.", "quantifier": "all inputs and ways of delivering them, all settings, all calls before and after on the reader and on the writer, all JsonWriter implementations, all behaviours of the Write", "why_tests_cant": "Any position of the reader can be combined with any position of the writer, for any input including malformed ones, and either side can fail at any point of the copy.", "anchors": ["src/reader/stream_reader.rs: transfer_to", "src/writer/mod.rs: JsonWriter, TransferredNumber", "src/writer/stream_writer.rs: JsonStreamWriter"]}
{"id": "C64", "title": "What closures write with the simple API is what closures read with it", "statement": "For every use of the simple writer API in which the calls and closures succeed, with any settings and a Write which does not fail: if the bytes the Write has received are given to the simple reader API, in any pieces and with any settings whose nesting limit is not exceeded, then the closures which read get exactly the data which the closures have written. In particular a program which asks for the type of every value and builds a tree of the data gets the tree which was written, with all items and members (also duplicate ones) in order, strings and number texts unchanged. A value of a Rust type with derived Serialize and Deserialize written with write_serialize is given back by read_deserialize.", "quantifier": "all nested uses of the simple writer, all writer and reader settings, all ways of delivering the bytes, all uses of the simple reader", "why_tests_cant": "The set of nested closures, of data and of settings on both sides is unbounded, and a difference may only show for one combination, such as an escape split between two reads.", "anchors": ["src/writer/simple.rs: SimpleJsonWriter, ValueWriter", "src/reader/simple.rs: SimpleJsonReader, ValueReader"]}
{"id": "C65", "title": "The results of reader calls depend only on the calls before", "statement": "The result of every call on a reader depends only on the input, the settings and the calls made before; it does not depend on the calls made afterwards or on how the program decides about its calls. So a program which decides on each call by the results so far gets exactly the results which the same sequence of calls gives when it is fixed in advance, and everything which holds for sequences of calls holds for programs.", "quantifier": "all programs using the reader, all inputs and deliveries of them, all settings", "why_tests_cant": "Programs are unbounded trees of decisions; a test only follows one path through one of them.", "anchors": ["src/reader/stream_reader.rs: JsonStreamReader", "src/reader/mod.rs: JsonReader"]}
{"id": "C66", "title": "Texts of the errors of copying, serializing and deserializing are unambiguous", "statement": "The text of an error of copying a value tells whether the reader or the writer has failed, and for the reader the problem and the place. The text of an error of the serializer which is not a custom error tells its kind and the expected and actual counts. The text of a deserializer error tells the deserializer's own nesting limit from the errors of the reader, including the reader's nesting limit, and tells the limit and the problem and place of the reader's error. Custom messages are used unchanged and can imitate any text.", "quantifier": "all errors, all texts of IO errors and all messages", "why_tests_cant": "Messages are embedded without escaping, so ambiguities may exist for some combination of kinds and messages; tests compare a few texts.", "anchors": ["src/reader/mod.rs: TransferError", "src/serde/ser.rs: SerializerError", "src/serde/de.rs: DeserializerError"]}
