{"id": "C01", "title": "v1 encoder output is exactly the wire format", "statement": "Any sequence of calls on a Go v1 BufferEncoder (Nil, Map, Slice, Bytes, String, Error, Bool, Uint8..Uint64, Int32, Int64, Float32, Float64) leaves Buffer.Bytes() equal to what it was before followed by the concatenation, in call order, of each value's polyglot wire encoding, whatever the buffer's spare capacity and whatever capacity append chooses when it reallocates; earlier bytes are never altered, and Len() grows by exactly the encoded size.", "quantifier": "every call sequence, every argument value of each Go type (payload lengths below 2^32), every initial buffer (content and capacity), every reallocation policy of append", "why_tests_cant": "each value has its own length and alignment with the end of the capacity; tests try one value per kind on a 512 byte buffer", "anchors": ["encode.go: encodeNil..encodeFloat64", "encoder.go: BufferEncoder", "buffer.go: Buffer.Write, NewBuffer"]}
{"id": "C02", "title": "v2 encoder output is exactly the wire format", "statement": "Any sequence of calls on a Go v2 BufferEncoder over a buffer obtained from NewBuffer, NewBufferSize or the Pool leaves Buffer.Bytes() equal to what it was before followed by the concatenation of each value's wire encoding, never panics, and never alters earlier bytes, wherever in the sequence Grow reallocates - provided no byte slice argument is 2^28 bytes or longer (see C06).", "quantifier": "every call sequence, every argument, every reachable buffer state (any initial size, any offset, stale content beyond the offset), every reallocation policy", "why_tests_cant": "the unrolled ladders index the backing array directly, so correctness depends on every (position, capacity, magnitude) combination; tests sample a few", "anchors": ["v2/encode.go: encodeNil..encodeFloat64, *Size constants", "v2/encoder.go", "v2/buffer.go: Grow, Write, NewBuffer, NewBufferSize"]}
{"id": "C03", "title": "v1 round trip of any message sequence", "statement": "Encoding any sequence of values with the v1 encoder and decoding the bytes with the v1 decoder by the corresponding sequence of calls returns exactly the same values, without error or panic, and leaves exactly the bytes that followed the encoding.", "quantifier": "every sequence of values, every trailing bytes", "why_tests_cant": "round trips in tests use single fixed values; the claim is over all 2^64 integers, all lengths, and all concatenations", "anchors": ["encode.go", "decode.go", "decoder.go: Decoder"]}
{"id": "C04", "title": "v2 round trip of any message sequence", "statement": "Encoding any sequence of values with the v2 encoder and decoding the bytes with the v2 decoder by the corresponding sequence of calls returns exactly the same values, without error or panic, and leaves exactly the bytes that followed the encoding (byte slices shorter than 2^28).", "quantifier": "every sequence of values, every trailing bytes, every initial buffer size", "why_tests_cant": "the v2 decoder is hand-unrolled per byte count; each branch is its own case and tests reach a few of them", "anchors": ["v2/encode.go", "v2/decode.go", "v2/decoder.go: BufferDecoder"]}
{"id": "C05", "title": "v1 and v2 interoperate", "statement": "Bytes produced by either Go version for a sequence of values are identical to those of the other version, and each version's decoder reads the other's output back to the same values (byte slices shorter than 2^28).", "quantifier": "every sequence of values; both directions", "why_tests_cant": "no test in the repository mixes versions; equality must hold for all values", "anchors": ["encode.go", "decode.go", "v2/encode.go", "v2/decode.go"]}
{"id": "C06", "title": "v2 Bytes length boundary", "statement": "encodeBytes of v2 writes the correct wire encoding exactly for byte slices shorter than 2^28; for every length from 2^28 to 2^32-1 the encoding is wrong: the first payload byte overwrites the last length byte, so the result is one byte shorter than the wire format and is not the wire encoding of the slice. Strings of the same length are encoded correctly.", "quantifier": "every byte slice and string, every buffer state", "why_tests_cant": "needs a 256 MB value to observe, and the claim is about all lengths on both sides of the boundary", "anchors": ["v2/encode.go: encodeBytes (missing offset++ in the fifth-byte branch), encodeString"]}
{"id": "C07", "title": "encoded size of every value is minimal and bounded", "statement": "Each integer's encoding is the shortest base-128 varint of its (zig-zag) magnitude: 1+ceil(bits/7) bytes with a non-zero last digit unless the value is zero, never more than 4 bytes for 16 bit, 6 for 32 bit and 11 for 64 bit values, and never more than the constant the v2 encoder reserves with Grow.", "quantifier": "every integer of every width; every value kind", "why_tests_cant": "exhaustive check over 2^64 values is infeasible", "anchors": ["encode.go: encodeUint16/32/64, encodeInt32/64", "v2/encode.go: *Size constants"]}
{"id": "C08", "title": "wire format is uniquely decodable", "statement": "Two different sequences of values never have the same encoding, and no value's encoding is a proper prefix of another value's encoding, so a stream of values can be split in only one way.", "quantifier": "every pair of value sequences", "why_tests_cant": "a statement about all pairs of infinitely many sequences", "anchors": ["encode.go", "v2/encode.go", "encoder.rs", "encoder.ts"]}
{"id": "C09", "title": "signed integers survive over their full range", "statement": "Int32 and Int64 zig-zag encoding is a bijection onto the unsigned range: every value from the minimum to the maximum, including MinInt32 and MinInt64, decodes back to itself, small magnitudes get short encodings, and the decoder's result on any varint is a value of the signed type.", "quantifier": "every int32 and int64 value, every decoded varint", "why_tests_cant": "2^64 values; the extreme values hit overflow in 'value*2' and '-(x+1)'", "anchors": ["encode.go: encodeInt32, encodeInt64", "decode.go: decodeInt32, decodeInt64", "v2/encode.go", "v2/decode.go"]}
{"id": "C10", "title": "floats are preserved bit for bit", "statement": "Float32/Float64 are transmitted as their IEEE-754 bit pattern in big-endian order: for every bit pattern (every NaN payload, -0, infinities, subnormals) the decoder yields the same bit pattern and every 5 resp. 9 byte input with the right kind is accepted.", "quantifier": "every 32-bit and 64-bit pattern", "why_tests_cant": "2^64 bit patterns; NaN payloads are not comparable with ==", "anchors": ["encode.go: encodeFloat32, encodeFloat64", "decode.go: decodeFloat32, decodeFloat64", "v2/encode.go", "v2/decode.go"]}
{"id": "C11", "title": "asking for the wrong kind is an error and consumes nothing", "statement": "In both Go versions, a decode call whose kind byte(s) differ from the next bytes of the input (or with empty input) returns that call's documented error, does not panic, and leaves the remaining input exactly as it was, so the caller can probe for Nil/Error first.", "quantifier": "every input, every requested kind, both versions", "why_tests_cant": "all inputs times all request kinds", "anchors": ["decode.go", "v2/decode.go", "decoder.go", "v2/decoder.go"]}
{"id": "C12", "title": "v1 decoder panics exactly on truncated varints", "statement": "Whether a v1 decode call panics is characterised exactly: it panics if and only if the kind bytes match, at least one byte follows the kind byte, and all the bytes present are continuation bytes but fewer than the maximum varint length (3, 5 or 10). On every other input it returns a value or an error. In particular the claim 'the decoder never panics on untrusted input' is false.", "quantifier": "every byte string, every request", "why_tests_cant": "fuzzing can find a panic but cannot show that no others exist", "anchors": ["decode.go: decodeUint16, decodeUint32, decodeUint64, decodeInt32, decodeInt64, decodeMap, decodeSlice, decodeBytes, decodeString, decodeError"]}
{"id": "C13", "title": "v2 decoder panics exactly on truncated varints", "statement": "Whether a v2 decode call panics is characterised exactly in the same way for the unrolled v2 decoder, including its inline length decoding for byte slices and its length guards.", "quantifier": "every byte string, every request", "why_tests_cant": "fuzzing can find a panic but cannot show that no others exist", "anchors": ["v2/decode.go"]}
{"id": "C14", "title": "the remaining input is a suffix and progress is made", "statement": "After any decode call in either Go version that does not panic, the remaining input is a suffix of the input before the call; a successful call consumes at least one byte - with exactly one exception: v2 Bytes on a five-byte run of continuation bytes, which returns an empty slice, no error, and consumes nothing.", "quantifier": "every byte string, every request, both versions", "why_tests_cant": "for all inputs; loops over decoded elements terminate only if this holds", "anchors": ["decode.go", "v2/decode.go"]}
{"id": "C15", "title": "decoding is independent of what follows", "statement": "If a decode call succeeds on an input, then on that input extended with any further bytes it succeeds with the same value and leaves the extension appended to the remainder; the value is determined by the bytes consumed.", "quantifier": "every input, every extension, every request, both versions", "why_tests_cant": "quantifies over pairs of inputs", "anchors": ["decode.go", "v2/decode.go"]}
{"id": "C16", "title": "what a failed decode leaves behind", "statement": "A failed decode call of a scalar kind or of Nil leaves the remaining input unchanged in both versions. A failed v2 Bytes leaves it unchanged as well. A failed Map/Slice/String/Error (and v1 Bytes) whose header matched leaves the input advanced past the header - and, when the length was read but the payload is missing, past the length - so failed calls are not atomic; the exact remainder is stated for every input.", "quantifier": "every byte string, every request, both versions", "why_tests_cant": "exact remainder must be known for every malformed input; tests check only the error", "anchors": ["decode.go", "v2/decode.go"]}
{"id": "C17", "title": "a truncated message is never mistaken for a complete one", "statement": "Decoding any strict prefix of a value's wire encoding with that value's request never succeeds in v1 or v2: it returns an error or panics, so no truncated value is silently accepted.", "quantifier": "every value, every cut point, both versions", "why_tests_cant": "every cut point of every value", "anchors": ["decode.go", "v2/decode.go"]}
{"id": "C18", "title": "exact acceptance of overlong and overflowing varints", "statement": "The Go integer decoders accept exactly the varints whose terminating byte occurs within 3/5/10 bytes, in v1 and v2 alike, and return the encoded magnitude reduced modulo 2^16/2^32/2^64 (then un-zig-zagged); in particular non-minimal encodings and encodings exceeding the type's range are accepted and wrapped, and v1 and v2 agree on all of them.", "quantifier": "every byte string of every length for every integer width", "why_tests_cant": "the overflow checks in the code compare against a bound the loop can never reach; only a proof over all inputs shows they are dead", "anchors": ["decode.go: 'i > VarIntLen..' checks", "v2/decode.go"]}
{"id": "C19", "title": "v1 Bytes destination semantics", "statement": "v1 Decoder.Bytes(dst) on success returns the encoded payload when dst is nil or not longer than the payload; when dst is longer than the payload the result has len(dst) bytes, the payload followed by dst's old tail - so the payload is returned exactly iff len(dst) <= payload length.", "quantifier": "every input, every destination slice", "why_tests_cant": "relation between arbitrary destination and payload lengths", "anchors": ["decode.go: decodeBytes", "decoder.go: Bytes"]}
{"id": "C20", "title": "v2 Bytes destination semantics and unterminated lengths", "statement": "v2 Bytes(dst) on success always returns exactly the encoded payload, whatever dst contains (unlike v1); dst's memory is overwritten with the payload exactly when the payload fits dst's capacity and is untouched otherwise; whether the call succeeds does not depend on dst. (A length of five continuation bytes is accepted as an empty payload, see C14.)", "quantifier": "every input, every destination slice", "why_tests_cant": "relation between arbitrary destination and payload lengths and malformed lengths", "anchors": ["v2/decode.go: decodeBytes"]}
{"id": "C21", "title": "Bool acceptance", "statement": "v2 Bool succeeds exactly on the two wire encodings of booleans; v1 Bool succeeds on any byte after the kind and returns true exactly when it is 1, so v1 accepts malformed booleans that v2 rejects.", "quantifier": "every input, both versions", "why_tests_cant": "all inputs", "anchors": ["decode.go: decodeBool", "v2/decode.go: decodeBool"]}
{"id": "C22", "title": "v2 Buffer behaves as a byte log under any history", "statement": "For any history of Write, Reset, Grow, MoveOffset (backwards, within the content) and encoder calls on a v2 Buffer, Bytes() always equals the log obtained by appending the written bytes, Reset empties it, Grow does not change it, and Len() equals the log's length; Cap() never shrinks.", "quantifier": "every operation history, every initial size, every reallocation policy", "why_tests_cant": "histories interleave growth, reset and stale contents in unboundedly many ways", "anchors": ["v2/buffer.go"]}
{"id": "C23", "title": "Grow always makes the requested room", "statement": "After Grow(n) on a v2 Buffer there is room for n more bytes (Cap()-Len() >= n), Bytes() is unchanged, the capacity at least doubles whenever a reallocation happens with n at most the capacity, and no reallocation happens when there was room already - for every reachable state and n >= 0.", "quantifier": "every buffer state, every n", "why_tests_cant": "the two reallocation branches compute the new length from n, cap and offset; all combinations matter", "anchors": ["v2/buffer.go: Grow"]}
{"id": "C24", "title": "NewBufferFromBytes with spare capacity is unsafe", "statement": "A v2 buffer made from a slice whose length equals its capacity behaves as any other buffer; made from a slice with spare capacity it violates the contract: encoder calls can panic, or silently store a truncated payload behind a length field announcing all of it. The exact condition (the slice length is below what is about to be written while the capacity suffices) is stated; Write is safe in both cases.", "quantifier": "every slice length, capacity and call", "why_tests_cant": "depends on the gap between length and capacity, which tests never create", "anchors": ["v2/buffer.go: NewBufferFromBytes, Grow", "v2/encode.go"]}
{"id": "C25", "title": "MoveOffset repositions the write cursor", "statement": "MoveOffset(k) on a v2 Buffer moves the end of Bytes() by k: with a negative k it drops the last bytes, with a positive k within the capacity it exposes the previously stored contents; Bytes() panics exactly when the offset is negative or beyond the capacity, and later writes overwrite from the new position.", "quantifier": "every buffer state and every integer k", "why_tests_cant": "all offsets incl. negative and beyond capacity", "anchors": ["v2/buffer.go: MoveOffset, Bytes"]}
{"id": "C26", "title": "slices handed out by v2 Bytes() stay valid while appending", "statement": "A slice obtained from v2 Buffer.Bytes() keeps its content under any further encoder calls and Writes (also across reallocation), as long as the buffer is not Reset, moved backwards or returned to the pool.", "quantifier": "every state, every sequence of later append operations, every reallocation policy", "why_tests_cant": "aliasing across reallocation depends on the capacity history", "anchors": ["v2/buffer.go: Bytes, Grow, Write"]}
{"id": "C27", "title": "slices handed out by v1 Bytes() stay valid while appending", "statement": "A slice obtained from v1 Buffer.Bytes() keeps its content under any further encoder calls and Writes, as long as the buffer is not Reset; after Reset the next writes overwrite it in place.", "quantifier": "every state, every sequence of later append operations, every reallocation policy", "why_tests_cant": "aliasing across reallocation depends on the capacity history", "anchors": ["buffer.go: Bytes, Write, Reset"]}
{"id": "C28", "title": "a pooled buffer is always handed out empty", "statement": "Whatever users did with a buffer before Put, Pool.Get returns a buffer whose Bytes() is empty and that is fit for encoding; Put(nil) is ignored.", "quantifier": "every history of Get/Put/use, every choice sync.Pool makes (reuse, drop, fresh)", "why_tests_cant": "sync.Pool's choices are scheduling dependent", "anchors": ["v2/pool.go: Get, Put", "v2/buffer.go: Reset"]}
{"id": "C29", "title": "pool users do not interfere", "statement": "If every client Puts only buffers it got and does not use a buffer after Put, then under every interleaving of clients each checked-out buffer belongs to exactly one client and each client observes exactly the bytes it would have observed alone.", "quantifier": "every number of clients, every interleaving, every sync.Pool choice", "why_tests_cant": "all schedules", "anchors": ["v2/pool.go", "v2/buffer.go"]}
{"id": "C30", "title": "v1 decoder pool", "statement": "GetDecoder(b) always returns a decoder positioned at the start of b, whatever decoders were returned before; with clients that return each decoder once and do not use it afterwards, decoders are never shared. Returning a decoder twice can hand the same decoder to two clients, so one client's decoding then reads the other's input.", "quantifier": "every history and interleaving, every sync.Pool choice", "why_tests_cant": "all schedules", "anchors": ["decoder.go: GetDecoder, ReturnDecoder, Return"]}
{"id": "C31", "title": "Error identity", "statement": "An error sent through Error and decoded again carries the same message and compares equal under v2 errors.Is to exactly those errors that have the same message (reflexive, symmetric, transitive on polyglot errors).", "quantifier": "every message pair", "why_tests_cant": "all pairs of strings", "anchors": ["v2/error.go: Error.Is", "v2/encode.go: encodeError", "v2/decode.go: decodeError"]}
{"id": "C32", "title": "length handling on 32-bit platforms", "statement": "On platforms with 64-bit int the payload-length check of Bytes/String rejects every length exceeding the remaining input; with 32-bit int, lengths above 2^31 convert to a negative int, the check passes and the call panics (a length of exactly 2^31 is rejected as an error); the exact set of panicking inputs is stated for both widths.", "quantifier": "every input, both int widths", "why_tests_cant": "platform dependent and needs every length", "anchors": ["decode.go: decodeBytes, decodeString (int(size))", "v2/decode.go"]}
{"id": "C33", "title": "Rust encoder output is exactly the wire format", "statement": "Any sequence of Rust Encoder calls on a cursor positioned at the end of its buffer appends exactly the wire encodings, identical to what the Go encoders write; with the cursor elsewhere the bytes are overwritten in place and everything else is unchanged (with zero fill beyond the end).", "quantifier": "every call sequence, every cursor state", "why_tests_cant": "all values and positions", "anchors": ["encoder.rs", "kind.rs"]}
{"id": "C34", "title": "Rust round trip", "statement": "Decoding the Rust encoder's output with the Rust decoder by the corresponding calls returns exactly the same values and leaves the cursor exactly behind the encoding.", "quantifier": "every sequence of values (strings valid UTF-8), every surrounding buffer", "why_tests_cant": "all values", "anchors": ["encoder.rs", "decoder.rs"]}
{"id": "C35", "title": "Rust decode failures: where the cursor ends up", "statement": "For each Rust decode call the error and the cursor position after failure are stated exactly: after a kind mismatch the position is restored, except that one byte (array) respectively two bytes (map) stay consumed; input shorter than the kind bytes is consumed entirely; overlong integers leave the cursor on their last digit; text that is not UTF-8 is consumed; after a short float or payload the position depends on the standard library version.", "quantifier": "every buffer, position and request", "why_tests_cant": "positions after failure on arbitrary input", "anchors": ["decoder.rs"]}
{"id": "C36", "title": "Rust decoder never reads outside the buffer and only moves forward on success", "statement": "On every input, every Rust decode call on a 64-bit target terminates with Ok or Err (no panic); on a 32-bit target it panics exactly when a payload length of 2^31 or more is announced (capacity overflow). On success the cursor has advanced by at least one byte and not beyond the end of the buffer, on failure it has not moved backwards.", "quantifier": "every buffer, position and request", "why_tests_cant": "all inputs", "anchors": ["decoder.rs"]}
{"id": "C37", "title": "Go and Rust interoperate", "statement": "Every value sequence encoded by Go (v1 or v2) decodes to the same values in Rust and vice versa; a Go string or error is accepted by Rust exactly when it is valid UTF-8.", "quantifier": "every sequence of values, every byte string as string content", "why_tests_cant": "cross-language tests use one shared file of fixed vectors", "anchors": ["encode.go", "v2/encode.go", "decoder.rs", "encoder.rs", "integration.rs"]}
{"id": "C38", "title": "TypeScript encoder output is exactly the wire format given room", "statement": "As long as each call's bytes fit in the buffer capacity at the time they are stored, any sequence of TypeScript Encoder calls produces exactly the wire encodings, identical to Go and Rust.", "quantifier": "every sequence of values, every initial buffer size", "why_tests_cant": "all values and positions", "anchors": ["encoder.ts", "kind.ts"]}
{"id": "C39", "title": "TypeScript encoder corrupts data at the buffer edge", "statement": "The TypeScript encoder reserves too few bytes for the largest integers and grows the buffer only once per call: the exact condition under which bytes are silently dropped or the call throws is stated, and for every initial size there is a call sequence of valid values whose output is not the wire format (or that throws).", "quantifier": "every initial size", "why_tests_cant": "depends on the exact alignment of values with the capacity", "anchors": ["encoder.ts: #resizeIfNeeded / resize logic, uint16, uint32, uint64, string, uint8Array"]}
{"id": "C40", "title": "TypeScript decoder reads valid encodings", "statement": "The TypeScript decoder returns the encoded value for every valid encoding and advances exactly past it, except for uint16 values of 2^14 and above (wrong value) and strings beginning with a byte order mark (dropped).", "quantifier": "every value, every surrounding buffer", "why_tests_cant": "all values; the uint16 defect occurs only in the third byte", "anchors": ["decoder.ts"]}
{"id": "C41", "title": "TypeScript decoder on truncated input", "statement": "On truncated input the TypeScript decoder may return a value instead of failing: for the varint, boolean, string and byte kinds it succeeds on every strict prefix that contains the kind bytes; the returned value is stated.", "quantifier": "every prefix of every encoding", "why_tests_cant": "all cut points", "anchors": ["decoder.ts"]}
{"id": "C42", "title": "all decoders agree on valid input", "statement": "For every valid encoding of every value the v1, v2 and Rust decoders return the same value and consume the same bytes, and so does TypeScript outside the two exceptions of C40.", "quantifier": "every value, every trailing bytes", "why_tests_cant": "all values, four implementations", "anchors": ["decode.go", "v2/decode.go", "decoder.rs", "decoder.ts"]}
{"id": "C43", "title": "Go and Rust agree on integers in malformed input", "statement": "On every input where the Go integer decoders do not panic, the Rust decoder accepts the same inputs with the same values and the same number of consumed bytes; where Go panics Rust returns an error.", "quantifier": "every byte string, every integer kind", "why_tests_cant": "all malformed inputs", "anchors": ["decode.go", "v2/decode.go", "decoder.rs"]}
{"id": "C44", "title": "C bindings report status faithfully", "statement": "Every C encode/decode entry point with non-null arguments sets the status to Pass exactly when the underlying operation succeeded and yields its value; null arguments yield NullPointer without touching the encoder or decoder. Exceptions (polyglot_decode_none and size) are stated.", "quantifier": "every argument combination, every decoder state", "why_tests_cant": "all argument/state combinations", "anchors": ["c_bindings/encoder.rs", "c_bindings/decoder.rs", "c_bindings/types.rs"]}
{"id": "C45", "title": "C buffer export is length checked", "statement": "polyglot_encoder_buffer copies the whole encoding into the caller's memory and reports Pass iff the given size is at least the encoding's size, and otherwise writes nothing; it never writes beyond the encoding's size.", "quantifier": "every encoder content, every caller buffer size", "why_tests_cant": "all sizes", "anchors": ["c_bindings/encoder.rs: polyglot_encoder_buffer, polyglot_encoder_size"]}
{"id": "C46", "title": "generated Go messages round trip", "statement": "For every protobuf schema whose generated Go code compiles and every message value built from scalars, enums, repeated fields, maps and sub-messages: (v2) decoding the generated encoding into a freshly created struct yields an equal message and leaves exactly what followed it, provided no sub-message starts with a Nil byte (see C47) and slice elements, map values and maps are not nil; without nil sub-messages the same holds in both versions for any previously used struct. When nils occur the exact resulting struct is given (v2 keeps the old sub-message of a reused struct, v1 builds an empty one).", "quantifier": "every schema, every message value of any nesting depth, every previous content of the struct", "why_tests_cant": "schemas and nesting are unbounded; tests use one fixed schema", "anchors": ["generator/golang/templates/*", "v2/generator/golang/templates/*", "v2/generator/golang/structs.go"]}
{"id": "C47", "title": "nil sub-messages are ambiguous", "statement": "The encoding of a message starts with a Nil byte exactly if the message type has no scalar or repeated field and its first message or map field is a nil message (or it has none); such a message is dropped by the generated decoder without an error and what follows is misread, and a concrete pair of different messages with equal encodings exists. All other messages are told apart by their encodings, whatever follows them.", "quantifier": "every schema; all pairs of message values", "why_tests_cant": "pairs of structured values", "anchors": ["generator/golang/templates/encode.templ", "v2/generator/golang/templates/encode.templ, decode.templ"]}
{"id": "C48", "title": "generated decoding terminates", "statement": "Version 2: decoding terminates on every input and for every message type exactly if no message type can reach itself through message fields without consuming input, and then the stack needed is linear in the input length; otherwise a fixed seven-byte input exhausts any stack. Version 1: decoding terminates on every input (with linear stack) exactly if the graph of singular message fields is acyclic; for a recursive schema some short input exhausts any stack.", "quantifier": "every schema, every input, every stack size", "why_tests_cant": "termination on all inputs", "anchors": ["generator/golang/templates/decode.templ", "v2/generator/golang/templates/decode.templ"]}
{"id": "C49", "title": "generator kind tables are consistent", "statement": "For every protobuf scalar kind, the encode method, decode method and wire kind the generators pick belong together: the emitted encoder method writes the kind byte announced in slice/map headers and the decode method accepts exactly that kind.", "quantifier": "every protobuf kind, all three target languages", "why_tests_cant": "tables are maintained by hand in three generators", "anchors": ["generator/golang/structs.go: encodeLUT, decodeLUT, kindLUT", "v2/generator/golang/structs.go", "generator/rust/structs.go", "generator/typescript/structs.go"]}
{"id": "C50", "title": "identifier conversion", "statement": "utils.CamelCase works character by character as documented (dots go, underscores before lower case letters go, words are capitalised); on a protobuf identifier the result is an exported Go identifier exactly if the name starts with a letter, '_' and a letter, or '__' and a lower case letter. Letters and digits are kept up to case, names made of lower case words joined by single underscores never collide, and concrete collisions of other names exist.", "quantifier": "every byte string / every identifier and full name", "why_tests_cant": "all strings", "anchors": ["utils/utils.go: CamelCase, CamelCaseFullName, CamelCaseName", "v2/utils/utils.go"]}
{"id": "C51", "title": "Rust kind bytes", "statement": "Converting a Rust Kind to its byte and back yields the same kind; converting any byte to a Kind and back yields the byte for 0..15 and the Unknown kind's byte 16 for every other byte.", "quantifier": "every kind and every byte", "why_tests_cant": "the conversion table is maintained by hand; the claim is over all bytes", "anchors": ["kind.rs: Kind, From<u8>"]}
{"id": "C52", "title": "TypeScript bytes snapshots are stable", "statement": "The Uint8Array returned by the TypeScript encoder's bytes getter keeps its contents whatever is encoded afterwards, including calls that throw and any number of buffer replacements.", "quantifier": "every encoder state reachable by calls, every later call sequence", "why_tests_cant": "call sequences are unbounded and the aliasing depends on when the buffer is replaced", "anchors": ["encoder.ts: bytes, resize"]}
{"id": "C53", "title": "TypeScript decoder behaviour is exactly specified", "statement": "On every input, well-formed or not, each TypeScript decoder call returns exactly the value and position given by a separate relation, or throws exactly the error given by it; decoded strings never contain lone surrogates.", "quantifier": "every byte input, every decoder position and every view into a larger ArrayBuffer", "why_tests_cant": "all inputs", "anchors": ["decoder.ts: Decoder"]}
{"id": "C54", "title": "TypeScript out-of-range arguments", "statement": "The TypeScript encoder does not check ranges: uint8 wraps modulo 2^8, non-negative uint16/uint32 and all int32 numbers wrap modulo 2^32, negative unsigned numbers are written as one raw byte (possibly an unterminated digit), and bigints of any size are written in full.", "quantifier": "every integer argument, every encoder state with room", "why_tests_cant": "all integers", "anchors": ["encoder.ts: varint, varintBig, uint8"]}
{"id": "C55", "title": "exactly which inputs the Go decoders accept", "statement": "A Go decode call (v1 and v2) succeeds exactly on the inputs described by the wire grammar, for every request, and then returns exactly the value the grammar gives and the rest of the input: nothing else is accepted and nothing acceptable is refused.", "quantifier": "every byte input, every request, both versions", "why_tests_cant": "all inputs; round trip tests only cover canonical encodings", "anchors": ["decode.go", "v2/decode.go"]}
{"id": "C56", "title": "C results and their release", "statement": "Pointers returned by the C decode functions own their contents until freed: a string can always be freed once; freeing a decoded byte buffer is defined exactly when its payload is one byte long (it is deallocated as a one-byte box), so for other lengths the library itself has undefined behaviour. A decoded text with an interior NUL is reported as failed although the decoder has moved past it.", "quantifier": "every decoded value, every sequence of calls", "why_tests_cant": "all payload lengths and call sequences; undefined behaviour is not observable by a test", "anchors": ["c_bindings/decoder.rs: polyglot_free_decode_bytes, polyglot_free_decode_string, polyglot_decode_string, polyglot_decode_error"]}
{"id": "C57", "title": "version 1 constructors terminate", "statement": "The generated version 1 NewM() returns exactly if the graph of singular message fields reachable from M is acyclic; for any other schema it recurses until the stack is exhausted.", "quantifier": "every schema and every message type in it", "why_tests_cant": "schemas are unbounded; a recursive message crashes the program at its first use", "anchors": ["generator/golang/templates/structs.templ"]}
{"id": "C58", "title": "generated encoding follows the documented layout", "statement": "The generated Encode (v1 and v2) appends to the buffer exactly: scalars and repeated fields in declaration order, then maps and messages in declaration order, slices and maps announced by their header, element kinds and length, a nil message being one Nil byte; whatever the buffer held before is kept.", "quantifier": "every schema whose generated code compiles, every message value, every buffer", "why_tests_cant": "schemas, values and buffer states are unbounded", "anchors": ["generator/golang/templates/encode.templ", "v2/generator/golang/templates/encode.templ"]}
{"id": "C59", "title": "generated decoding is memory and type safe", "statement": "Whatever the input, the generated Decode (v1 and v2) returns a well-typed message together with a suffix of the input, or an error, or panics exactly where the library's decoder does; the result does not depend on how much stack is available unless the stack runs out.", "quantifier": "every schema, every byte input, every previous content of the struct", "why_tests_cant": "all inputs", "anchors": ["generator/golang/templates/decode.templ", "v2/generator/golang/templates/decode.templ"]}
{"id": "C60", "title": "lower-casing helpers", "statement": "utils.SnakeCase lowers every ASCII capital and separates it by an underscore unless it comes first or follows a capital; identifiers stay identifiers, it is idempotent, leaves names without capitals alone and undoes CamelCase on names whose words have at least two letters. FirstLowerCase and LowercaseCamelCase agree on names starting in ASCII; on every other well-formed name LowercaseCamelCase yields ill-formed UTF-8.", "quantifier": "every byte string, every behaviour of unicode.ToLower outside ASCII", "why_tests_cant": "all strings", "anchors": ["utils/utils.go: SnakeCase, FirstLowerCase, LowercaseCamelCase", "v2/utils/utils.go"]}
{"id": "C61", "title": "generated Rust encoding", "statement": "The encode method generated for Rust writes, at the cursor, exactly the bytes the generated Go code appends for the same fields, and never fails for a struct that Rust's types allow.", "quantifier": "every schema whose generated Rust code compiles, every struct, every cursor inside its buffer", "why_tests_cant": "schemas, values and buffer states are unbounded", "anchors": ["generator/rust/templates/encode.templ", "generator/rust/templates/decode.templ", "generator/rust/templates/decodeMap.templ", "generator/rust/structs.go"]}
{"id": "C62", "title": "generated Rust round trip", "statement": "A struct encoded by generated Rust decodes to an equal struct, with the cursor exactly behind it, whatever follows, if no message in it encodes to nothing; otherwise if what follows is the end, or at least two bytes that start neither with Nil nor with the two kind bytes of an error. A message without content followed by anything else swallows or misreads it. Any struct a decode returned can be encoded again and reads back.", "quantifier": "every schema, struct, surrounding data", "why_tests_cant": "schemas, values and inputs are unbounded", "anchors": ["generator/rust/templates/encode.templ", "generator/rust/templates/decode.templ", "generator/rust/templates/decodeMap.templ", "generator/rust/structs.go"]}
{"id": "C63", "title": "generated Go and generated Rust understand each other", "statement": "What Go (v1 or v2) generated code wrote, Rust generated code decodes to the same struct (nil maps as empty ones) exactly if all strings are UTF-8, all enum values are declared ones and no message is nil; otherwise it returns an error. What Rust wrote, Go v1 and v2 decode to the same struct.", "quantifier": "every schema compiling in both languages, every struct", "why_tests_cant": "cross product of schemas, values, languages", "anchors": ["generator/rust/templates/encode.templ", "generator/rust/templates/decode.templ", "generator/rust/templates/decodeMap.templ", "generator/rust/structs.go", "generator/golang/templates/encode.templ", "v2/generator/golang/templates/decode.templ"]}
{"id": "C64", "title": "errors in place of messages (Rust)", "statement": "If the input holds an error where generated Rust expects a message, decode returns that error and leaves the rest; a Nil gives None. This fails for error texts that are not UTF-8: the error is skipped silently and the message is read from what follows.", "quantifier": "every error text, schema, following data", "why_tests_cant": "all texts and inputs", "anchors": ["generator/rust/templates/decode.templ", "decoder.rs: decode_error, decode_none"]}
{"id": "C65", "title": "generated Rust decoding is safe on any input", "statement": "Whatever the input, generated Rust decode returns a struct its types allow, None, or an error; the cursor stays in the buffer and never moves back; on 64-bit targets it panics only if memory cannot be had; the stack depth is at most a schema constant times the number of remaining bytes plus one, and the result does not depend on the stack available beyond that.", "quantifier": "every schema, every byte input, every position", "why_tests_cant": "all inputs", "anchors": ["generator/rust/templates/encode.templ", "generator/rust/templates/decode.templ", "generator/rust/templates/decodeMap.templ", "generator/rust/structs.go"]}
{"id": "C66", "title": "memory requested by generated Rust decoding", "statement": "The memory requested is not bounded by the input's size: eight bytes make generated code reserve room for 2^32-1 elements (the intended property is refuted). If every reservation succeeds, decoding on a 64-bit target never dies.", "quantifier": "every input and schema; any allocator behaviour", "why_tests_cant": "needs an adversarial input and an allocator that refuses", "anchors": ["generator/rust/templates/decode.templ"]}
{"id": "C67", "title": "the Rust generator's import analysis", "statement": "The analysis terminates exactly if no message reachable from the file's top-level messages can reach itself (so it does not for recursive messages that the generated code supports); it imports HashMap exactly if a message reachable from a top-level message has a map field and enum support exactly if the file has a top-level enum, so maps in unreferenced nested messages and enums nested in messages lack their imports.", "quantifier": "every set of message descriptors", "why_tests_cant": "schemas are unbounded; non-termination cannot be tested", "anchors": ["generator/rust/imports.go"]}
{"id": "C68", "title": "repeated map keys: the last one wins, in every language", "statement": "If an input's map announces the same key more than once (no encoder here writes that, other writers can), the Go v1, Go v2 and Rust generated decoders all end up with each key once, holding the value sent last, at every nesting depth; nothing else changes, and the result is a valid struct.", "quantifier": "every compiling schema, every sequence of entries at every depth, every target struct and following data", "why_tests_cant": "all schemas and entry sequences, three languages", "anchors": ["generator/golang/templates/decodeMap.templ", "v2/generator/golang/templates/decodeMap.templ", "generator/rust/templates/decodeMap.templ"]}
{"id": "C69", "title": "which schemas are supported", "statement": "Generated Go type-checks exactly if every message's fields are of the supported shapes (no groups, no repeated bytes, no repeated enums, no maps to bytes) and no message consists of map fields only; generated Rust exactly if only strings, bytes and messages are repeated, map keys are strings, map values are numbers, bools, enums or messages, and no message contains itself through singular fields. That every protobuf message is supported is refuted.", "quantifier": "every schema", "why_tests_cant": "all schemas, recursive ones included", "anchors": ["generator/golang/structs.go", "generator/rust/structs.go", "generator/golang/templates", "generator/rust/templates"]}
{"id": "C70", "title": "what generated code declares", "statement": "For every file, generated Go declares exactly one struct per message at any depth (map entries aside) with its fields in order under their camel-case names, one type and constructor per map field, and one type per enum declared at top level or directly in a top-level message; every message and map type a field mentions is declared, and so is every such enum. Rust declares the same structs and enums. Refuted: that deeper enums are declared, that a repeated enum field names the declared type, that two files can share a package, and that constructors never clash with messages.", "quantifier": "every file descriptor, any nesting", "why_tests_cant": "descriptors are unbounded trees", "anchors": ["generator/golang/templates/structs.templ", "generator/golang/templates/messages.templ", "generator/golang/templates/enums.templ", "generator/golang/structs.go: FindValue", "generator/rust/templates/structs.templ"]}
{"id": "C71", "title": "which names are legal in generated code", "statement": "A field clashes with a method of its Go struct exactly if its protobuf name is a spelling of error, encode or decode; Go names are never reserved words; a Rust type name is reserved exactly if it spells Self; a Rust field name is reserved exactly if the protobuf name is a reserved word up to a capitalised prefix, and a TypeScript one exactly if it is a reserved word up to its first letter's case.", "quantifier": "every identifier", "why_tests_cant": "all names", "anchors": ["generator/golang/templates/structs.templ", "utils/case.go", "generator/rust/templates/structs.templ", "generator/typescript/templates/structs.templ"]}
{"id": "C72", "title": "enum values are numbered by position", "statement": "In generated Go and Rust the constant of the i-th declared value of an enum is i, so the languages agree and the discriminants are the numbers below the number of values; that they are the numbers written in the protobuf file is refuted, and removing a value changes the wire value of all later ones.", "quantifier": "every enum, every position", "why_tests_cant": "all enums", "anchors": ["generator/golang/templates/enums.templ", "generator/rust/templates/enums.templ"]}
{"id": "C73", "title": "an error in place of a message is not a message (Go)", "statement": "x.Error(b, err) of a generated type appends exactly one Error value. Decoding it (or the empty input) with the generated Go decoder of any message type never panics and never succeeds: it returns the error of the first field's decoder method (for the first scalar field exactly which one is fixed), so the text of the error sent does not reach the caller; only message types made of nothing but such message types succeed, and leave the error unread.", "quantifier": "every compiling schema, message type, target struct, error text, following bytes and stack size", "why_tests_cant": "schemas, structs and inputs are unbounded", "anchors": ["generator/golang/templates/structs.templ", "generator/golang/templates/decode.templ", "v2/generator/golang/templates/decode.templ"]}
{"id": "C74", "title": "generated Go decoders: more input, less input", "statement": "If generated Go decoding succeeds, it succeeds with the same value and leaves the appended bytes unread whatever is appended to the input; and no proper prefix of an encoded message is ever accepted, whatever struct it is decoded into. Both hold for every schema in which no message type is devoid of scalar, repeated and map fields at every depth, and are refuted otherwise.", "quantifier": "every such schema, every input and appended bytes, every truncation point, every struct", "why_tests_cant": "all cut points of all messages of all schemas", "anchors": ["generator/golang/templates/decode.templ", "v2/generator/golang/templates/decode.templ"]}
{"id": "C75", "title": "schema changes that do not matter", "statement": "Two schemas whose corresponding messages have, in the same order, fields of the same shape and the same wire kind (int32/sint32/sfixed32, uint32/fixed32/enum, ... are alike; names, field numbers and message order play no part) have the same values with the same encodings, so that Go code generated from the one reads what code generated from the other wrote, at every depth; a field may also be moved past one of another group (scalars, repeated, messages/maps). Exchanging two fields of one group is refuted: values are silently exchanged.", "quantifier": "every pair of compatible schemas (recursive ones included), every value, both versions", "why_tests_cant": "pairs of schemas and their values are unbounded", "anchors": ["generator/golang/structs.go: GetEncodingFields, GetDecodingFields", "generator/golang/templates/encode.templ", "generator/golang/templates/decode.templ"]}
{"id": "C76", "title": "fields added to a message", "statement": "If fields are appended to a message type that occurs only at the top level, and none of them belongs to an earlier wire group than an old one, then a reader generated from the old schema decodes the old fields of every new message correctly and leaves exactly the added ones unread; a reader generated from the new schema never accepts an old message that ends there. Refuted (silent misreading) for added fields of an earlier group, for messages nested in others, and for old messages followed by other data.", "quantifier": "every pair of schemas so related, every value, both versions", "why_tests_cant": "pairs of schemas and their values are unbounded", "anchors": ["generator/golang/structs.go: GetEncodingFields, GetDecodingFields", "generator/golang/templates/decode.templ", "v2/generator/golang/templates/decode.templ"]}
{"id": "C77", "title": "the struct after a failed generated Go decode", "statement": "If generated Go decoding of a message into a struct fails, the struct still is well-typed, and there is a position in the wire order of the fields such that the fields before it hold what was read (exactly what a message type with only these fields would read), the fields after it are untouched and the failing field itself holds zero (scalar), the elements read so far before the elements of a new or old slice, the entries read so far, or a message in the state its own failed decode left; for a truncated message the position is the field in which the input ends. Decoding a complete message without nils into the same struct afterwards gives exactly this message. A failed decode is not atomic (refuted).", "quantifier": "every compiling schema, message, struct, input (and truncation point), stack size, both versions", "why_tests_cant": "all inputs and all truncation points of all schemas", "anchors": ["generator/golang/templates/decode.templ", "generator/golang/templates/decodeMap.templ", "v2/generator/golang/templates/decode.templ", "decode.go", "v2/decode.go"]}
{"id": "C78", "title": "memory requested by generated Go decoding", "statement": "Generated Go decoding makes at most one slice or map per four bytes of input, each for fewer than 2^32 elements, and none for message types without repeated fields and maps; if it succeeds (and every element takes at least a byte) it asked for at most as many elements as it consumed bytes. Refuted: memory bounded by the input - eight bytes make it ask for any number of elements below 2^32. With limited memory or a 32-bit int it behaves the same up to the first slice that does not fit, and panics there.", "quantifier": "every compiling schema, struct, input, memory limit, stack size, both versions", "why_tests_cant": "all inputs and all limits", "anchors": ["generator/golang/templates/decode.templ", "generator/golang/templates/decodeMap.templ", "v2/generator/golang/templates/decode.templ"]}
{"id": "C79", "title": "what a v2 buffer costs", "statement": "Under any history of encodes, writes, Grow, Reset and backward moves every reallocation of a v2 Buffer at least doubles its capacity, so that there are logarithmically many and all arrays ever abandoned together are no larger than the current one; the capacity stays below twice the most room ever asked for (up to what the allocator rounds up), i.e. below twice the bytes written plus 9; memory is allocated exactly when a call asks for more room than there is, and a buffer that is Reset and used for the same calls again allocates nothing.", "quantifier": "every history of calls, every initial buffer, every allocator", "why_tests_cant": "histories and sizes are unbounded", "anchors": ["v2/buffer.go: Grow, Write, Reset", "v2/encode.go"]}
{"id": "C80", "title": "the TypeScript generator: names", "statement": "The TypeScript generator succeeds on a request iff no field of it is a (proto2) group; every generated file then imports exactly the library names that it and the files generated before it in the same request use, in particular every name it uses. Refuted: that these names exist - all of them are exported by the library iff every field of every message of the file is a single message, so the code generated for any message with a scalar, enum, repeated or map field does not compile.", "quantifier": "every request (files, messages nested at any depth, fields)", "why_tests_cant": "requests are unbounded; the import list depends on the order in which templates run", "anchors": ["generator/typescript/structs.go: getEncodingFields, getDecodingFields, getKind, getKindLUT, findValue", "generator/typescript/generator.go: ExecuteTemplate, trackDependency", "generator/typescript/templates/*.templ", "index.ts"]}
{"id": "C81", "title": "the TypeScript generator: field order", "statement": "The TypeScript generator declares one class per message; each statement of its encode and decode methods names the library functions, kinds and types for its field's declared type; its encode method writes single values, then repeated fields, then messages and maps, like Go and Rust. Refuted: that its decode method reads what encode (or Go, or Rust) wrote - it reads repeated fields, messages and maps, and single values, in this order, which is the order of writing iff the message has single values only or none; and it passes the values to the constructor in the order of its parameters iff no field is declared before one of an earlier group.", "quantifier": "every request, every message", "why_tests_cant": "messages and their fields are unbounded", "anchors": ["generator/typescript/templates/encode.templ", "generator/typescript/templates/decode.templ", "generator/typescript/templates/structs.templ", "generator/typescript/structs.go"]}
{"id": "C82", "title": "generated Rust: a cut message is never accepted", "statement": "If at least one byte is missing at the end of an encoded message that contains no nil message, the generated Rust decode never returns Ok, and with enough memory it returns an error, whatever the message. Refuted for what Go writes for a nil message when its type is empty: decoding succeeds with an empty message instead.", "quantifier": "every schema that compiles, every message value, every cut point, every nesting depth", "why_tests_cant": "messages and cut points are unbounded", "anchors": ["generator/rust/templates/decode.templ", "generator/rust/templates/decodeMap.templ", "generator/rust/templates/encode.templ", "generator/rust/structs.go: getEncodingFields, getDecodingFields", "decoder.rs: Decoder", "v2/generator/rust/templates/*.templ"]}
{"id": "C83", "title": "generated Rust: bytes that follow do not matter", "statement": "If the generated Rust decode returns Ok on some bytes, then it returns the same value, and stops at the same place, when any bytes are appended, provided that no message type is made of nothing but empty messages and that read_exact moves to the end when it fails. Refuted without either proviso.", "quantifier": "every schema that compiles, every input (valid or not), every continuation", "why_tests_cant": "inputs and continuations are unbounded", "anchors": ["generator/rust/templates/decode.templ", "generator/rust/templates/decodeMap.templ", "generator/rust/templates/encode.templ", "generator/rust/structs.go: getEncodingFields, getDecodingFields", "decoder.rs: Decoder", "v2/generator/rust/templates/*.templ"]}
{"id": "C84", "title": "generated Rust: compatible schemas", "statement": "A message written by generated Rust or Go code for one schema is read by Rust or Go code generated for another schema that differs in names, field numbers, message numbering and kinds with the same encoding: the reader gets the same values if it can hold them (enums, text) and Rust reports an error if not.", "quantifier": "every pair of compatible schemas, every correspondence of messages, every value, every trailing data", "why_tests_cant": "schemas and values are unbounded", "anchors": ["generator/rust/templates/decode.templ", "generator/rust/templates/decodeMap.templ", "generator/rust/templates/encode.templ", "generator/rust/structs.go: getEncodingFields, getDecodingFields", "generator/golang/templates/*.templ", "decoder.rs: Decoder", "v2/generator/rust/templates/*.templ"]}
{"id": "C85", "title": "generated Rust: added fields", "statement": "If fields are added that come last on the wire, old generated Rust code reads the fields it knows from a new message and leaves the added ones unread (so the following data are misread unless the message is the last thing in the buffer); new Rust code never accepts an old message that is alone in its buffer.", "quantifier": "every pair of schemas of which one is an extension of the other, every value, every trailing data", "why_tests_cant": "schemas and values are unbounded", "anchors": ["generator/rust/templates/decode.templ", "generator/rust/templates/decodeMap.templ", "generator/rust/templates/encode.templ", "generator/rust/structs.go: getEncodingFields, getDecodingFields", "decoder.rs: Decoder", "v2/generator/rust/templates/*.templ"]}
{"id": "C86", "title": "a buffer may be fed its own contents", "statement": "Between two Resets a client may keep slices of Bytes() and later write or encode them into the same buffer, with any encoding, growing and reallocation in between: the buffer then holds what it would hold had the client passed copies, and the kept slices still read the same. Refuted after a Reset: encoding the slice the buffer held before stores the header over the front of the slice first.", "quantifier": "every buffer, growth policy, and every history of operations, slices kept and slices fed back", "why_tests_cant": "histories are unbounded and the reallocation policy is the runtime's", "anchors": ["buffer.go: Write, Bytes", "v2/buffer.go: Write, Bytes, Grow", "encode.go: encodeBytes", "v2/encode.go: encodeBytes"]}
{"id": "C87", "title": "decoded byte slices and memory", "statement": "Byte slices decoded into destinations that share no memory with the input or with each other: any sequence of decoder calls behaves as on byte strings; afterwards every result reads as decoded, the input and all memory other than the destinations is unchanged, no two results share memory, and overwriting the input later changes no result. A single result is right even if the destination overlaps the input, but what follows it may be lost; a result passed as destination again is overwritten.", "quantifier": "every heap, input slice, sequence of calls and destinations, and every allocator", "why_tests_cant": "sharing depends on addresses and capacities, of which there are unboundedly many", "anchors": ["decode.go: decodeBytes", "v2/decode.go: decodeBytes", "decoder.go: Bytes", "v2/decoder.go: Bytes"]}
{"id": "C88", "title": "a request to the Go generator", "statement": "Generate answers a request with one file per file protoc asked for, in the same order, named after the prefix with .polyglot.go, with the last component of the protobuf package as package clause (the Go package name if there is none), the imports polyglot and errors, and the declarations of C70; it returns an error instead exactly if a field of one of these files is a group (protogen, which formats the files afterwards, is outside the model; it rejects all of them as long as the version string ends in a newline, as it does at this commit: C95). What a file generates does not depend on the other files. No generated package-level name starts with a lower case letter, so none captures an import, a predeclared type, a keyword, or one of the variables of generated functions that start so (all but those made from a field name: FTemp, FSize; C92).", "quantifier": "every request: any number of files, packages, messages at any depth", "why_tests_cant": "requests and descriptors are unbounded", "anchors": ["generator/golang/generator.go: Generate, ExecuteTemplate", "generator/golang/headers.go: FileName", "generator/golang/imports.go: RequiredImports", "generator/golang/templates/base.templ, headers.templ, imports.templ, errors.templ", "v2/generator/golang"]}
{"id": "C89", "title": "which generated Go packages follow Go's declaration rules", "statement": "The generated files of a Go package satisfy Go's rules for declarations (one legal package clause, imports used, names legal and declared once, fields and methods distinct, every type mentioned declared) exactly if the package has one generated file, whose package clause is a usable name, which has a message, whose Go names are legal and distinct, no field of which is called like a method, and all of whose fields refer to types declared in the same file. So two generated files never make a package, a file with only enums does not compile, types of other files cannot be used, and a protobuf package ending in a keyword is a syntax error.", "quantifier": "every request and every Go import path in it", "why_tests_cant": "the claim is about every request; a test generates a few files", "anchors": ["generator/golang/generator.go: Generate", "generator/golang/imports.go: RequiredImports", "generator/golang/structs.go: FindValue", "generator/golang/templates/errors.templ, imports.templ, structs.templ, enums.templ"]}
{"id": "C90", "title": "a request to the Rust generator", "statement": "Generate answers a request with one file per file protoc asked for, in the same order, named after the prefix with _polyglot.rs, with the declarations of C71; it imports HashMap exactly if a top-level message leads to a map and TryFromPrimitive exactly if there is a top-level enum. Given enough stack there is a response exactly if no field is a group, following field types from every top-level message comes to an end, and rustfmt accepts every file; with a recursive message the generator never ends. Fields are usable in other crates only with privacy=public, in other modules unless privacy=private, and by default in no other module.", "quantifier": "every request: any number of files, packages, messages at any depth; every stack size; every behaviour of rustfmt; every value of the option", "why_tests_cant": "requests and descriptors are unbounded, and so is the recursion", "anchors": ["generator/rust/generator.go: Generate, ExecuteTemplate, New", "generator/rust/imports.go: DependencyAnalysis, traverseFields", "generator/rust/headers.go: FileName", "generator/rust/templates/imports.templ, structs.templ", "v2/generator/rust"]}
{"id": "C91", "title": "which generated Rust modules follow Rust's rules for items", "statement": "A generated Rust file satisfies Rust's rules for items (names legal, declared once, not those imported, not capturing prelude names; fields and variants legal and distinct; every name in a field type known; what the enum derive needs imported) exactly if its protobuf file has distinct type names, none called like something imported, Self, Encode, Decode or a prelude name; no field or value that is a keyword; only types of the same file; a map only if a top-level message leads to one; an enum only if one is at top level. So a file whose only enums are inside messages does not compile, nor one whose only maps are in messages no top-level message refers to, nor one with a message Kind, nor one using a type of another file.", "quantifier": "every request and every file of it", "why_tests_cant": "the claim is about every request; a test generates a few files", "anchors": ["generator/rust/generator.go: Generate", "generator/rust/imports.go: DependencyAnalysis", "generator/rust/structs.go: findValue", "generator/rust/templates/imports.templ, structs.templ, enums.templ, base.templ"]}
{"id": "C92", "title": "running generated Go code: Decode and New", "statement": "Calling the Decode method that the generator emits for a message, on a pointer to a struct in memory no part of which occurs twice, returns exactly the result, error, remaining input and allocations of the decoder of C46-C49 and C73-C78, and leaves at the pointer the struct that decoder leaves, made of old parts of it and of new objects; no other object in memory changes. On a nil receiver it returns the package's nil-decode error and does nothing. NewM allocates a new struct and changes nothing else; in version 1 it overflows the stack exactly if its type is recursive beyond it. Not true when a generated variable (FTemp) has the name of a type, or (version 1) when two fields point at one struct.", "quantifier": "every file whose Go names do not clash, every message and field type, every memory, input, stack size and allocator", "why_tests_cant": "the generator's output is a program per schema; a test compiles and runs one schema on a few inputs and looks at one struct, not at the rest of memory", "anchors": ["generator/golang/templates: structs.templ, decode.templ, decodeMap.templ, enums.templ, base.templ", "v2/generator/golang/templates", "generator/golang/structs.go: getEncodingFields, getDecodingFields, getKind, findValue"]}
{"id": "C93", "title": "running generated Go code: Encode, Error, and the round trip in memory", "statement": "Calling the emitted Encode method on nil or on any finite structure in memory, shared parts included, makes exactly the encoder calls of the tree it stands for (the bytes of C58), changes nothing else in memory, and needs exactly as many stack frames as the tree is deep. Error writes the error and nothing else. Encoding a struct, making a new one and decoding the bytes into it gives a struct that holds the same tree, made only of new objects, with every other object unchanged. A structure that contains itself overflows every stack.", "quantifier": "every file whose Go names do not clash, every message, memory, buffer and stack size", "why_tests_cant": "the structures in memory, and the programs generated, are unbounded", "anchors": ["generator/golang/templates: structs.templ, encode.templ, encodeMap.templ", "v2/generator/golang/templates", "generator/golang/structs.go: getEncodingFields"]}
{"id": "C94", "title": "the Go compiler's type checker on generated code", "statement": "The generated Go file passes Go's type checker (declared names, types of calls, assignments, ranges and conversions, unused variables, := declaring something new) exactly if the schema has no groups, no repeated bytes or enums, no maps to bytes and no message made of map fields only; and a program that passes never gets stuck: Decode returns or panics where the library does. Not true when a generated variable hides a type, nor for an enum named uint32.", "quantifier": "every file whose Go names do not clash, with protobuf's own map keys; both generator versions", "why_tests_cant": "the generator's output is a program per schema: tests generate and compile a handful of schemas", "anchors": ["generator/golang/templates: structs.templ, encode.templ, decode.templ, encodeMap.templ, decodeMap.templ, enums.templ", "v2/generator/golang/templates", "generator/golang/structs.go", "polyglot.go: Encoder, Decoder method sets; v2: Decoder(b), Encoder(b)"]}
{"id": "C95", "title": "the text of a generated Go file", "statement": "For every protobuf file whose descriptors have the names protoc allows (identifiers joined by dots, starting with a letter; no repeated enum with a Go keyword as full name), executing the templates of either version succeeds, and the text they write, read by Go's lexical rules (comments, automatic semicolons), has exactly the tokens of the package clause, the import declaration and the declarations of the program of C92-C94, and no others. This needs a version string and a source path without a newline. The version string embedded at this commit ends in one: the text generated for every file starts with the tokens , DO NOT EDIT . and is no Go file.", "quantifier": "every file: any enums, messages nested to any depth, fields, maps, names; any package name, version and path; with and without the header", "why_tests_cant": "the templates write text piece by piece; whether the pieces of any combination of fields and names join to the intended tokens cannot be seen from a few generated files", "anchors": ["generator/golang/templates/*.templ", "v2/generator/golang/templates/*.templ", "generator/golang/generator.go: New, ExecuteTemplate", "generator/golang/structs.go: FindValue, GetEncodingFields, GetDecodingFields", "generator/golang/imports.go: RequiredImports", "version/version.go: Version", "version/current_version", "v2/version/current_version"]}
{"id": "C96", "title": "the header of Rust and TypeScript files", "statement": "Every Rust file (before rustfmt) and every TypeScript file that the generators write starts with the comment that names the version and the source path. The version string embedded at this commit ends in a newline, so that the third line of every such file is , DO NOT EDIT. outside of any comment, before anything else: no generated Rust or TypeScript file can be compiled, and rustfmt rejects all of them.", "quantifier": "every file, whatever the other templates write and whatever functions they call; both versions", "why_tests_cant": "the claim is about every file; a test sees the header of one", "anchors": ["generator/rust/templates/base.templ, headers.templ", "generator/typescript/templates/head.templ, headers.templ", "generator/rust/generator.go: ExecuteTemplate", "generator/typescript/generator.go: ExecuteTemplate", "version/version.go: Version", "version/current_version", "v2/version/current_version"]}
{"id": "C97", "title": "running a generated Rust decode", "statement": "For every protobuf file whose names do not clash (with each other, with the library's types) and whose generated Rust code compiles: running the generated T::decode, statement by statement (its local functions, ? and ok_or, the struct expression, Vec::with_capacity, HashMap::insert, try_from), gives on every input exactly the struct, None, error, panic or stack overflow of the tree decoder of C61-C66, with the cursor at the same place; a stack linear in the input is enough. Refuted without the clash condition: a message Vec makes every decode with a repeated field not compile.", "quantifier": "every file, message, input, cursor position, stack, allocator, build mode, import set, privacy option", "why_tests_cant": "the generated code is written by templates from arbitrary descriptors; a test runs it for one file", "anchors": ["generator/rust/templates/*.templ", "v2/generator/rust/templates/*.templ", "generator/rust/structs.go", "generator/rust/lut.go", "polyglot_rs/src/decoder.rs"]}
{"id": "C98", "title": "running a generated Rust encode, and the two languages together", "statement": "For every such file, every struct of a message and every place in the buffer: running the generated encode writes exactly the bytes of C61 and returns Ok(b), and running decode on them gives the struct back. What a running Go program (version 2, C92, C93) writes for the same message, the running Rust program reads (nil maps come back empty, what Rust cannot hold is refused), and what the running Rust program writes, the running Go program reads into new objects.", "quantifier": "every file, message, struct, buffer, position, stack, allocator; every Go memory", "why_tests_cant": "round trips between generated programs of two languages are claimed for all descriptors and all values", "anchors": ["generator/rust/templates/encode.templ", "generator/rust/templates/decode.templ", "v2/generator/golang/templates/*.templ", "generator/rust/structs.go", "polyglot_rs/src/encoder.rs"]}
{"id": "C99", "title": "the text of a generated Rust file", "statement": "For every protobuf file whose descriptors have the names protoc allows (identifiers joined by dots, starting with a letter) and every value of the option privacy, executing the Rust templates succeeds, and the text they write, before rustfmt lays it out again, read by Rust's lexical rules, has exactly the tokens of the items of the program that C97 and C98 are about, and no others. This needs a version string and a source path without a newline; the version string embedded at this commit ends in one, so that the tokens of every generated file start with , DO NOT EDIT . , which begin no Rust item.", "quantifier": "every file: any enums, messages nested to any depth, fields, maps, names; any privacy option, version and path, with or without the imports that enums and maps need", "why_tests_cant": "the templates write text piece by piece; whether the pieces of any combination of fields and names join to the intended tokens cannot be seen from a few generated files", "anchors": ["generator/rust/templates/*.templ", "v2/generator/rust/templates/*.templ", "generator/rust/generator.go: New, ExecuteTemplate", "generator/rust/structs.go: findValue, getEncodingFields, getDecodingFields", "version/version.go: Version", "version/current_version", "v2/version/current_version"]}
{"id": "C100", "title": "the text of a generated TypeScript file", "statement": "For every request whose files have the names protoc allows, generating TypeScript succeeds, and the text of each file, read by TypeScript's lexical rules with the line breaks kept (statements end with their lines), has exactly the tokens of an import of the names recorded so far, each once, followed by those of the declarations that C80, C81 and C82 are about, and no others. This needs a version string and a source path without a line break; the version string embedded at this commit ends in one, so that the tokens of every generated file start with , DO NOT EDIT . , which begin no module. In the text of a class with a map field the map that the decoder hands to the constructor is declared empty and never mentioned otherwise: decoded entries are lost.", "quantifier": "every request: any files with any enums, messages nested to any depth, fields, maps, names; any version and path", "why_tests_cant": "the templates write text piece by piece, and a line break too many or too few changes what the text means; whether the pieces of any combination of fields and names join to the intended tokens cannot be seen from a few generated files", "anchors": ["generator/typescript/templates/*.templ", "v2/generator/typescript/templates/*.templ", "generator/typescript/generator.go: New, Generate, ExecuteTemplate, trackDependency", "generator/typescript/structs.go: findValue, getEncodingFields, getDecodingFields", "version/version.go: Version", "version/current_version", "v2/version/current_version"]}
{"id": "C101", "title": "a generated Go file can be read, and only as the program the other properties are about", "statement": "For every protobuf file whose names are Go names and whose enums have at most 2^32 values, generating Go succeeds, and the text of the file, split into tokens by Go's lexical rules and parsed by Go's grammar, is a package clause, an import declaration and declarations - expression by expression, statement by statement, declaration by declaration the program that C92, C93 and C94 are about - and has no other reading. Hence: write the file, read the text, run the program that it is: Encode, then New and Decode in any memory, gives back what was encoded (version 1: messages without nil); if the program that is read type checks, Decode of any bytes ends within a depth linear in their number; and it type checks exactly if the file is supported. With the version string that is embedded at this commit no generated text is a Go file.", "quantifier": "every file: any enums, messages nested to any depth, fields, maps, names; any version without a line break, path and package name; every bound of the parser's depth; for the round trip every memory, value and buffer", "why_tests_cant": "tests compile what was generated from the files they have; that any combination of fields and names yields text which a compiler reads as intended, and not as something else, needs an argument about the grammar and every file", "anchors": ["generator/golang/templates/*.templ", "v2/generator/golang/templates/*.templ", "generator/golang/generator.go: ExecuteTemplate", "generator/golang/structs.go: findValue, getEncodingFields, getDecodingFields, getKind", "version/version.go: Version"]}
