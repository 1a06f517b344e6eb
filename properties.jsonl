{"id": "C01", "title": "Unsigned bit fields round-trip at every position", "statement": "If BitStreamWriter.write_bits(value, numbits) succeeds, then a BitStreamReader over the produced bytes, positioned where the write began, returns exactly value from read_bits(numbits) and ends where the write ended, whatever was written before and after.", "quantifier": "all writer histories (any prior bit position), all numbits, all values, all later writes", "why_tests_cant": "the byte-merge code has a case per (position mod 8, width mod 8) and per carry into later bytes; values range over 2^64 and prefixes over all byte strings", "anchors": ["compiler/extensions/python/runtime/src/zserio/bitwriter.py:BitStreamWriter.write_bits,_write_bits", "compiler/extensions/python/runtime/src/zserio/bitreader.py:BitStreamReader.read_bits,read_bits_unchecked"]}
{"id": "C02", "title": "Signed bit fields round-trip at every position", "statement": "If write_signed_bits(value, numbits) succeeds, then read_signed_bits(numbits) at the same position returns value, including the minimum negative value and -1.", "quantifier": "all writer histories, all numbits in 1..64, all signed values in range, all later writes", "why_tests_cant": "two's-complement sign extension interacts with masking of the first byte at each of the 8 alignments", "anchors": ["compiler/extensions/python/runtime/src/zserio/bitwriter.py:write_signed_bits,write_signed_bits_unchecked,_write_bits", "compiler/extensions/python/runtime/src/zserio/bitreader.py:read_signed_bits,read_signed_bits_unchecked"]}
{"id": "C03", "title": "The writer's output is exactly the concatenation of successful writes", "statement": "For every sequence of BitStreamWriter calls, some of which raise, byte_array consists of exactly the bit encodings of the calls that succeeded, in order, MSB first; bitposition is their total length, byte_array has ceil(bitposition/8) bytes, and unused trailing bits are zero. In particular no write ever changes bits written earlier, and a raising call leaves the writer unchanged.", "quantifier": "all finite call histories mixing every public write method with valid and invalid arguments", "why_tests_cant": "histories are unbounded; a call that fails half way or clobbers an earlier byte only shows up on particular prefixes", "anchors": ["compiler/extensions/python/runtime/src/zserio/bitwriter.py:BitStreamWriter"]}
{"id": "C04", "title": "Out-of-range values are rejected, in-range values are accepted", "statement": "write_bits(value, n) succeeds iff 1<=n<=64 and 0<=value<2^n; write_signed_bits(value, n) succeeds iff 1<=n<=64 and -2^(n-1)<=value<2^(n-1); otherwise it raises PythonRuntimeException.", "quantifier": "all integers value and n", "why_tests_cant": "the boundary is 128 different pairs of limits over unbounded integers", "anchors": ["compiler/extensions/python/runtime/src/zserio/bitwriter.py:write_bits,write_signed_bits,write_bits_unchecked,write_signed_bits_unchecked"]}
{"id": "C05", "title": "The reader never delivers bits beyond the stream", "statement": "read_bits(n) on a reader with bitsize b at position p raises PythonRuntimeException iff n is not in 1..64 or p+n>b, and then position is unchanged; otherwise it returns the big-endian value of bits p..p+n-1 and advances by n. It depends on no other bit of the buffer.", "quantifier": "all buffers, all bitsizes within the buffer, all positions, all n", "why_tests_cant": "buffers are unbounded; the last partial byte and bits after bitsize must never leak", "anchors": ["compiler/extensions/python/runtime/src/zserio/bitreader.py:BitStreamReader.__init__,read_bits,read_bits_unchecked"]}
{"id": "C06", "title": "Every sequence of reads stays within the stream", "statement": "Starting from any BitStreamReader with a bit size that is not negative, after any sequence of read calls (bits, signed bits, all var integers, bool, floats, bytes, string, bit buffer, alignto) with any outcome, the position is within 0..bitsize and never decreases, and the buffer is unmodified. The bitposition setter accepts exactly the positions 0..bitsize.", "quantifier": "all buffers (including hostile ones) and all finite call sequences, continuing after exceptions", "why_tests_cant": "hostile inputs and call histories are unbounded", "anchors": ["compiler/extensions/python/runtime/src/zserio/bitreader.py:BitStreamReader"]}
{"id": "C07", "title": "Variable-length integers round-trip", "statement": "For each of varint16/32/64/varint, varuint16/32/64/varuint, varsize: every value of the type's documented range is written successfully and read back unchanged from the same position, and the reader stops at the end of the encoding.", "quantifier": "all values of the nine types, all writer positions, all later writes", "why_tests_cant": "ranges go up to 2^64 and encodings have 2..9 byte layouts with a special last byte and a special INT64_MIN", "anchors": ["compiler/extensions/python/runtime/src/zserio/bitwriter.py:write_varint16,write_varint32,write_varint64,write_varint,write_varuint16,write_varuint32,write_varuint64,write_varuint,write_varsize,_write_varnum", "compiler/extensions/python/runtime/src/zserio/bitreader.py:read_varint16..read_varsize"]}
{"id": "C08", "title": "bitsizeof of a variable-length integer is its exact, minimal encoded length", "statement": "bitsizeof_X(value) equals the number of bits write_X(value) appends, is a multiple of 8 not above the type's maximum, and no shorter byte sequence is decoded to value by read_X.", "quantifier": "all values of the nine types; all shorter byte strings", "why_tests_cant": "minimality quantifies over all alternative encodings", "anchors": ["compiler/extensions/python/runtime/src/zserio/bitsizeof.py:_bitsizeof_varnum,VAR*_MAX_VALUES", "compiler/extensions/python/runtime/src/zserio/bitwriter.py:_write_varnum", "compiler/extensions/python/runtime/src/zserio/bitreader.py:read_var*"]}
{"id": "C09", "title": "Out-of-range variable-length integers are rejected without effect", "statement": "write_X and bitsizeof_X raise PythonRuntimeException exactly for values outside the documented range of X, and write_X then leaves the writer unchanged.", "quantifier": "all integers, all nine types, all writer states", "why_tests_cant": "integers are unbounded; boundaries differ per type", "anchors": ["compiler/extensions/python/runtime/src/zserio/bitsizeof.py:_bitsizeof_varnum", "compiler/extensions/python/runtime/src/zserio/bitwriter.py:write_var*"]}
{"id": "C10", "title": "Decoding variable-length integers is range-safe on any input", "statement": "On any buffer, read_X either raises PythonRuntimeException or returns a value within the documented range of X, consuming a whole number of bytes, at least one and at most the type's maximum; read_varsize never returns more than 2^31-1.", "quantifier": "all buffers, positions, nine types", "why_tests_cant": "hostile byte sequences", "anchors": ["compiler/extensions/python/runtime/src/zserio/bitreader.py:read_varint16..read_varsize"]}
{"id": "C100", "title": "Documentation comments belong to what they stand before", "statement": "A declaration has exactly the documentation comments right before its first token, in their order, a field also those before its parts; no comment documents two declarations, and exactly the comments that belong to nothing are reported as unused. A comment is sticky exactly if what follows begins on the next line at the latest. The text of a markdown comment is what stands between its markers, without the indentation the comment itself has. The paragraphs of a classic comment are what stands between empty lines, with no line lost, and lines after a text, @todo or @param belong to it. Messages about something inside a comment give its line and column in the file.", "quantifier": "all token streams, all tokens asked for, all texts and columns of markdown comments, all lists of elements of a classic comment", "why_tests_cant": "Tests have some sources; that no comment is given away twice or lost without a warning, and that no line loses more or less than the indentation, are statements about all sources.", "anchors": ["compiler/core/src/zserio/ast/DocCommentManager.java: findDocComments, findDocCommentsBefore, printWarnings, parseDocCommentMarkdown, getFirstLineIndent, areLinesIndented", "compiler/core/src/zserio/ast/DocCommentAstBuilder.java: visitDocElement, addDocElement", "compiler/core/src/zserio/antlr/util/TokenParseErrorListener.java: syntaxError"]}
{"id": "C101", "title": "References in documentation find what they name", "statement": "A @see reference resolves only to something that exists, is visible from the package and has the written name. A member of the own type comes first; a symbol or a member of a type is found by its full name if its package is imported, by its short name as the documentation of names says, and a package by its name whether imported or not.", "quantifier": "all packages, imports, owners and references", "why_tests_cant": "Tests have some packages; that no combination of imports makes a reference point to something else is a statement about all of them.", "anchors": ["compiler/core/src/zserio/ast/SymbolReference.java: resolve, resolveScopeSymbol, resolvePackageSymbol, resolvePackage"]}
{"id": "C11", "title": "Byte strings, strings and bit buffers round-trip at any alignment", "statement": "write_bytes/write_string/write_bitbuffer followed by the corresponding read at the same position returns an equal value, whether or not the position is byte aligned; the aligned fast path and the unaligned loop produce the same bits.", "quantifier": "all byte strings, all strings of Unicode scalar values, all bit buffers, all writer positions, all later writes", "why_tests_cant": "two code paths selected by alignment over unbounded data", "anchors": ["compiler/extensions/python/runtime/src/zserio/bitwriter.py:write_bytes,write_string,write_bitbuffer", "compiler/extensions/python/runtime/src/zserio/bitreader.py:read_bytes,read_string,read_bitbuffer"]}
{"id": "C12", "title": "bitsizeof of bytes, strings and bit buffers is exact", "statement": "bitsizeof_bytes, bitsizeof_string and bitsizeof_bitbuffer return exactly the number of bits the corresponding write appends, and raise exactly when the write raises.", "quantifier": "all values, all writer positions", "why_tests_cant": "unbounded lengths crossing varsize boundaries", "anchors": ["compiler/extensions/python/runtime/src/zserio/bitsizeof.py:bitsizeof_bytes,bitsizeof_string,bitsizeof_bitbuffer", "compiler/extensions/python/runtime/src/zserio/bitwriter.py:write_bytes,write_string,write_bitbuffer"]}
{"id": "C13", "title": "The three alignment functions agree", "statement": "For alignment a>0 and position p>=0, bitposition.alignto(a,p) is the least multiple of a not below p; BitStreamWriter.alignto(a) moves the writer there by appending zero bits; BitStreamReader.alignto(a) moves the reader there or raises when that is behind the stream.", "quantifier": "all positions and alignments", "why_tests_cant": "three independent formulas must coincide everywhere", "anchors": ["compiler/extensions/python/runtime/src/zserio/bitposition.py:alignto", "compiler/extensions/python/runtime/src/zserio/bitwriter.py:alignto", "compiler/extensions/python/runtime/src/zserio/bitreader.py:alignto,bitposition"]}
{"id": "C14", "title": "BitBuffer equality is equality of the used bits and is compatible with hashing", "statement": "Two BitBuffers are equal iff they have the same bit size and the same first bitsize bits; unused bits of the last byte never matter; equality is an equivalence relation and equal buffers have equal hashes.", "quantifier": "all pairs and triples of bit buffers", "why_tests_cant": "needs all garbage bit patterns and sizes", "anchors": ["compiler/extensions/python/runtime/src/zserio/bitbuffer.py:BitBuffer.__init__,__eq__,__hash__,_masked_last_byte"]}
{"id": "C15", "title": "Hash codes are 32-bit and compatible with equality", "statement": "Every calc_hashcode_* function returns a value in 0..2^32-1 for any argument, is a function of the value only, and for integers, strings, bytes, bit buffers and their arrays, equal values give equal hash codes.", "quantifier": "all seeds and values", "why_tests_cant": "unbounded sequences", "anchors": ["compiler/extensions/python/runtime/src/zserio/hashcode.py"]}
{"id": "C16", "title": "float16 values round-trip exactly", "statement": "For every 16-bit pattern u that is not a NaN, float_to_uint16(uint16_to_float(u)) = u, hence write_float16/read_float16 reproduce every value representable as half precision, including subnormals, signed zero and infinities; NaN is read back as NaN.", "quantifier": "all half precision values", "why_tests_cant": "subnormal/normal/overflow branches over all exponents and significands", "anchors": ["compiler/extensions/python/runtime/src/zserio/float.py:uint16_to_float,float_to_uint16", "compiler/extensions/python/runtime/src/zserio/bitwriter.py:write_float16", "compiler/extensions/python/runtime/src/zserio/bitreader.py:read_float16"]}
{"id": "C17", "title": "float16 narrowing is accurate and overflow becomes infinity", "statement": "For any Python float within the half precision range, write_float16/read_float16 returns a half precision value nearest to it; a larger float becomes infinity of the same sign.", "quantifier": "all double precision values", "why_tests_cant": "2^64 inputs, rounding carries between exponents", "anchors": ["compiler/extensions/python/runtime/src/zserio/float.py:float_to_uint16"]}
{"id": "C18", "title": "float32 and float64 round-trip exactly", "statement": "write_float64/read_float64 reproduces every Python float bit for bit; write_float32/read_float32 reproduces every float that is representable in single precision.", "quantifier": "all floats, all positions", "why_tests_cant": "2^64 values", "anchors": ["compiler/extensions/python/runtime/src/zserio/float.py:uint32_to_float,float_to_uint32,uint64_to_float,float_to_uint64", "compiler/extensions/python/runtime/src/zserio/bitwriter.py:write_float32,write_float64", "compiler/extensions/python/runtime/src/zserio/bitreader.py:read_float32,read_float64"]}
{"id": "C19", "title": "numbits is the minimal sufficient width", "statement": "builtin.numbits(v) is 0 for v=0 ... and for v>0 the least number of bits that stores all of 0..v-1 (at least 1); bitfield bounds returned by the bitfield module are exactly the range the writer accepts for that length.", "quantifier": "all non-negative integers; all lengths 1..64", "why_tests_cant": "unbounded integers", "anchors": ["compiler/extensions/python/runtime/src/zserio/builtin.py:numbits", "compiler/extensions/python/runtime/src/zserio/bitfield.py"]}
{"id": "C20", "title": "Arrays round-trip for every element kind and length mode", "statement": "For every element trait (bit fields, var integers, floats, bytes, string, bool, bit buffer, objects) and length mode (auto, fixed, implicit), Array.write followed by read at the same position gives an equal array and stops at its end (implicit arrays: when nothing follows).", "quantifier": "all element lists, all traits, all writer positions, with or without indexed offsets", "why_tests_cant": "unbounded lists", "anchors": ["compiler/extensions/python/runtime/src/zserio/array.py:Array.write,read,*ArrayTraits"]}
{"id": "C21", "title": "Array.bitsizeof predicts exactly what write appends", "statement": "For any array and start position p, bitsizeof(p) equals the number of bits write appends when the writer is at p; initialize_offsets(p) returns p plus that number.", "quantifier": "all arrays, traits, positions", "why_tests_cant": "alignment padding before each element depends on position; the constant-size shortcut is a second formula", "anchors": ["compiler/extensions/python/runtime/src/zserio/array.py:Array.bitsizeof,initialize_offsets,write"]}
{"id": "C22", "title": "Initialised offsets always pass their checks", "statement": "After initialize_offsets(p), write from position p never fails an offset check, and reading the result from p never fails one; each stored offset is the byte position at which its element really starts.", "quantifier": "all arrays/objects with (indexed) offsets, all start positions", "why_tests_cant": "position arithmetic over unbounded contents", "anchors": ["compiler/extensions/python/runtime/src/zserio/array.py:Array.initialize_offsets,write,read", "compiler/extensions/python/freemarker/CompoundField.inc.ftl"]}
{"id": "C23", "title": "Packed arrays are lossless", "statement": "For each packable element type and any list of values of the type's range, Array.write_packed followed by read_packed returns the same list and stops at its end.", "quantifier": "all value lists, all packable integer traits, all positions, auto/fixed length", "why_tests_cant": "delta width selection, overflow fallback and the no-packing fallback depend on the whole list", "anchors": ["compiler/extensions/python/runtime/src/zserio/array.py:Array.write_packed,read_packed,DeltaContext,PackedArrayTraits"]}
{"id": "C24", "title": "Packed array size prediction is exact", "statement": "Array.bitsizeof_packed(p) equals the number of bits write_packed appends at p, and initialize_offsets_packed(p) returns p plus that.", "quantifier": "all arrays and positions", "why_tests_cant": "same as C23", "anchors": ["compiler/extensions/python/runtime/src/zserio/array.py:Array.bitsizeof_packed,initialize_offsets_packed,write_packed,DeltaContext.bitsizeof"]}
{"id": "C25", "title": "Packing never costs more than the descriptor", "statement": "For any list of integers of a packable type, the packed encoding is at most one bit longer than the plain encoding of the same array.", "quantifier": "all value lists", "why_tests_cant": "an optimum over all lists", "anchors": ["compiler/extensions/python/runtime/src/zserio/array.py:DeltaContext._finish_init,bitsizeof"]}
{"id": "C26", "title": "Packed reading is safe on any input", "statement": "read_packed on an arbitrary buffer either raises or returns a list of the expected length, never moving outside the stream; every returned element is within the element type's range.", "quantifier": "all buffers", "why_tests_cant": "hostile inputs", "anchors": ["compiler/extensions/python/runtime/src/zserio/array.py:DeltaContext.read,Array.read_packed"]}
{"id": "C27", "title": "Generated objects round-trip through serialization for every schema", "statement": "For every schema (structures with optional, extended, aligned, offset, constrained, parameterized and array fields; choices; unions; enums; bitmasks; nested to any depth) and every object with attributes of the annotated types whose unused optional fields are None and whose last present extended field is not empty: if write/serialize accepts it, from_reader/deserialize gives back the object (bit buffers without surplus bits), from bit buffers, bytes and files. Types without extended fields and implicit arrays round-trip at any position and whatever follows.", "quantifier": "all schemas in the modelled subset, all objects, all start positions", "why_tests_cant": "schemas and objects are unbounded", "anchors": ["compiler/extensions/python/runtime/src/zserio/serialization.py:serialize,deserialize", "compiler/extensions/python/freemarker/Structure.py.ftl", "compiler/extensions/python/freemarker/CompoundField.inc.ftl", "compiler/extensions/python/freemarker/Choice.py.ftl", "compiler/extensions/python/freemarker/Union.py.ftl", "compiler/extensions/python/freemarker/Enumeration.py.ftl", "compiler/extensions/python/freemarker/Bitmask.py.ftl"]}
{"id": "C28", "title": "Generated bitsizeof is exact for every schema", "statement": "For every schema and object that write accepts, obj.bitsizeof(p) equals the number of bits obj.write appends at position p, and obj.initialize_offsets(p) returns p plus that.", "quantifier": "all schemas in the modelled subset, all objects, all positions", "why_tests_cant": "schemas and objects are unbounded", "anchors": ["compiler/extensions/python/freemarker/CompoundField.inc.ftl", "compiler/extensions/python/freemarker/Structure.py.ftl", "compiler/extensions/python/freemarker/Choice.py.ftl", "compiler/extensions/python/freemarker/Union.py.ftl"]}
{"id": "C29", "title": "Generated writers enforce constraints, ranges and array lengths", "statement": "If obj.write succeeds then, in the written object and in every compound nested in it, every present field satisfies its constraint, its declared range and its array length expression, nested objects were built with the parameters the schema gives them, and values have the declared type. If from_reader succeeds the same holds of the object returned (ranges are implied by the wire types).", "quantifier": "all schemas, objects and input buffers", "why_tests_cant": "all objects/hostile inputs", "anchors": ["compiler/extensions/python/freemarker/CompoundField.inc.ftl:compound_check_constraint_field,compound_check_range_field,compound_check_array_length_field"]}
{"id": "C30", "title": "Extended fields are backward and forward compatible", "statement": "Data written by an older schema version (with fewer extended fields) is read by the newer version with the same values, the additional extended fields reported not present and at their defaults; data written by the newer version is read by the older one, which sees the same values of the fields it knows.", "quantifier": "all structures, all extended field lists, all objects", "why_tests_cant": "pairs of schemas and objects", "anchors": ["compiler/extensions/python/freemarker/CompoundField.inc.ftl", "compiler/extensions/python/freemarker/Structure.py.ftl"]}
{"id": "C31", "title": "Enumerations and bitmasks only carry valid values", "statement": "Reading an enumeration yields exactly the declared items and raises ValueError otherwise; writing a removed item raises; looking an item up by name finds exactly the declared item. Bitmask or/and/xor/invert of in-bounds values stay in bounds and act as set operations; from_value accepts exactly the in-bounds values; a bitmask read outside a packed array is in bounds.", "quantifier": "all enum/bitmask declarations, all inputs", "why_tests_cant": "declarations and 2^64 values", "anchors": ["compiler/extensions/python/freemarker/Enumeration.py.ftl", "compiler/extensions/python/freemarker/Bitmask.py.ftl"]}
{"id": "C32", "title": "Generated equality is compatible with generated hashing", "statement": "For every schema whose optional clauses and choice selectors do not depend on values == cannot distinguish or on fields that are not used, and every pair of objects without a floating point zero: objects that compare equal have equal hashes; == is symmetric and transitive; hashes are 32-bit; the object read back compares equal to the one written and has the same hash.", "quantifier": "all schemas, all pairs of objects", "why_tests_cant": "pairs of unbounded objects", "anchors": ["compiler/extensions/python/freemarker/Structure.py.ftl:__eq__,__hash__", "compiler/extensions/python/freemarker/Choice.py.ftl", "compiler/extensions/python/freemarker/Union.py.ftl", "compiler/extensions/python/runtime/src/zserio/hashcode.py"]}
{"id": "C33", "title": "Reading generated objects from hostile input is safe", "statement": "For every schema, parameters and any buffer and position, from_reader either returns an object of the requested type with the given parameters or raises one of the listed exceptions; the buffer and bit size are unchanged, the position never moves backwards and never passes the end of the stream.", "quantifier": "all schemas in the modelled subset, all buffers", "why_tests_cant": "hostile inputs", "anchors": ["compiler/extensions/python/freemarker/Structure.py.ftl:read", "compiler/extensions/python/runtime/src/zserio/bitreader.py"]}
{"id": "C34", "title": "JSON strings survive encoding and decoding", "statement": "For every string, decoding the JSON text produced for it by the JSON writer gives the same string.", "quantifier": "all strings of Unicode code points", "why_tests_cant": "escapes of control and special characters anywhere in unbounded strings", "anchors": ["compiler/extensions/python/runtime/src/zserio/json.py:JsonEncoder.encode_string,JsonDecoder._decode_string"]}
{"id": "C35", "title": "JSON parsing does not depend on buffer boundaries", "statement": "The token sequence produced for a text does not depend on how the text is split into read chunks.", "quantifier": "all texts, all chunk sizes", "why_tests_cant": "chunk boundaries inside strings, numbers, escapes", "anchors": ["compiler/extensions/python/runtime/src/zserio/json.py:JsonTokenizer"]}
{"id": "C36", "title": "The JSON writer's output parses back to the same event sequence", "statement": "For every object tree, parsing the text produced by JsonWriter (any indentation) reports the same sequence of begin/end object/array, key and value events as were written.", "quantifier": "all trees, all indentation settings", "why_tests_cant": "unbounded trees", "anchors": ["compiler/extensions/python/runtime/src/zserio/json.py:JsonWriter,JsonParser"]}
{"id": "C37", "title": "Bitmask and enum JSON strings are read back to the same value", "statement": "The string JsonWriter produces for a bitmask or enum value is converted by JsonReader back to the same value.", "quantifier": "all declarations, all values", "why_tests_cant": "2^64 values, overlapping and zero masks", "anchors": ["compiler/extensions/python/runtime/src/zserio/json.py:JsonWriter._write_stringified_enum,_write_stringified_bitmask,JsonReader._CreatorAdapter"]}
{"id": "C38", "title": "The walker reports a well-bracketed pre-order traversal", "statement": "With the default filter the observer receives exactly one begin/end pair per compound and array and one visit per value, properly nested, in schema order, optional fields that are not used being reported as null values.", "quantifier": "all object trees whose array members are set", "why_tests_cant": "unbounded trees", "anchors": ["compiler/extensions/python/runtime/src/zserio/walker.py:Walker"]}
{"id": "C39", "title": "Walk filters only restrict the traversal", "statement": "With any filter the events are still well bracketed; DepthWalkFilter(d) reports nothing nested deeper than d; ArrayLengthWalkFilter(n) reports at most n elements of every array and everything else.", "quantifier": "all trees, all filters, all limits", "why_tests_cant": "unbounded trees and arbitrary filters", "anchors": ["compiler/extensions/python/runtime/src/zserio/walker.py:Walker,DepthWalkFilter,ArrayLengthWalkFilter"]}
{"id": "C40", "title": "AndWalkFilter is the conjunction and keeps all filters informed", "statement": "AndWalkFilter answers true iff every one of its filters answers true, and every filter receives every call in order even if an earlier one answered false.", "quantifier": "all filter lists and call sequences", "why_tests_cant": "stateful filters, histories", "anchors": ["compiler/extensions/python/runtime/src/zserio/walker.py:AndWalkFilter"]}
{"id": "C41", "title": "ZserioTreeCreator rejects every ill-formed call sequence and builds what it is told", "statement": "Any call sequence either follows the nesting grammar or raises PythonRuntimeException; feeding it the events of a walk over an object rebuilds an equal object.", "quantifier": "all call histories, all object trees", "why_tests_cant": "histories", "anchors": ["compiler/extensions/python/runtime/src/zserio/creator.py:ZserioTreeCreator"]}
{"id": "C42", "title": "Service and Pub/Sub calls are transparent", "statement": "Whatever request object a client passes is what the service implementation receives, and whatever it returns is what the client gets; the same holds for published messages.", "quantifier": "all schemas, all objects (including those with offsets)", "why_tests_cant": "unbounded objects; offsets initialised or not", "anchors": ["compiler/extensions/python/runtime/src/zserio/service.py:ObjectServiceData", "compiler/extensions/python/freemarker/Service.py.ftl", "compiler/extensions/python/freemarker/Pubsub.py.ftl"]}
{"id": "C43", "title": "SQL table writes are all-or-nothing", "statement": "SqlTable.write(rows) in autocommit mode either stores all rows or leaves the table as it was, and returns the connection to autocommit mode.", "quantifier": "all row lists, failure at any row", "why_tests_cant": "crash points", "anchors": ["compiler/extensions/python/freemarker/SqlTable.py.ftl:write,update_columns"]}
{"id": "C44", "title": "Packed writing refuses values outside the element type", "statement": "write_packed raises for every list that contains a value outside the element type's range, as write does.", "quantifier": "all value lists, all packable integer traits", "why_tests_cant": "whether a bad element is noticed depends on its position and on the packing decision for the whole list", "anchors": ["compiler/extensions/python/runtime/src/zserio/array.py:DeltaContext.write,Array.write_packed"]}
{"id": "C45", "title": "The size of a packed array is bounded by its encoding", "statement": "The number of elements read_packed returns is bounded by a function of the number of bits it consumes, so that a short input cannot produce an arbitrarily long list.", "quantifier": "all buffers", "why_tests_cant": "a statement about all inputs and resource bounds", "anchors": ["compiler/extensions/python/runtime/src/zserio/array.py:DeltaContext.read,Array.read_packed"]}
{"id": "C46", "title": "JSON text of an object is read back to an equal object", "statement": "For every object whose field values have their declared types, from_json_string(type, to_json_string(obj)) returns an object with the same field values.", "quantifier": "all schemas, all objects, all indentation settings", "why_tests_cant": "unbounded object trees, every character and every number", "anchors": ["compiler/extensions/python/runtime/src/zserio/debugstring.py:to_json_string,from_json_string", "compiler/extensions/python/runtime/src/zserio/json.py:JsonWriter,JsonReader", "compiler/extensions/python/runtime/src/zserio/creator.py:ZserioTreeCreator"]}
{"id": "C47", "title": "RegexWalkFilter reports exactly the matching paths and what leads to them", "statement": "With RegexWalkFilter a field or array element is reported iff its path, or the path of something in it, matches the pattern; the filter can be used again for another walk.", "quantifier": "all object trees, all patterns", "why_tests_cant": "arbitrary patterns and trees; nested searches that stop early", "anchors": ["compiler/extensions/python/runtime/src/zserio/walker.py:RegexWalkFilter"]}
{"id": "C48", "title": "Reading any JSON text gives a well-typed object or an exception", "statement": "Whatever text is given to JsonReader and however the stream delivers it, reading ends: it returns an object of the type requested whose members and elements have the types of the schema, or raises PythonRuntimeException, ValueError, TypeError, IndexError or what the constructor of a nested object raises.", "quantifier": "all texts, all divisions into reads, all schemas and types", "why_tests_cant": "arbitrary malformed texts", "anchors": ["compiler/extensions/python/runtime/src/zserio/json.py:JsonReader,JsonParser,JsonTokenizer,JsonDecoder", "compiler/extensions/python/runtime/src/zserio/debugstring.py:from_json_string,from_json_stream", "compiler/extensions/python/runtime/src/zserio/creator.py:ZserioTreeCreator"]}
{"id": "C49", "title": "Rows written to an SQL table are read back", "statement": "After write(rows, columns), reading the same columns gives the rows that were there followed by the rows written: objects in blob columns as after a round trip, enums and bitmasks as written, None stays None, columns not asked for are None. update sets the columns asked for by one statement. Rows have the same shape whatever the types of the columns. The column type chosen for a field does not make the database convert the values of that field.", "quantifier": "all tables, column subsets, rows and database contents", "why_tests_cant": "only a few tables and column subsets can be tried; the column subset changes the statement, the values and the shape of rows", "anchors": ["compiler/extensions/python/freemarker/SqlTable.py.ftl:write,read_columns,update_columns,_write_row,_read_row,_create_column_mapping", "compiler/core/src/zserio/extension/common/sql/SqlNativeTypeMapper.java:getSqlType"]}
{"id": "C50", "title": "The statement creating a table is well formed", "statement": "create_table names exactly the columns that are not virtual with their types and constraints, separated by commas, followed by the table's constraint; a table with virtual columns gets a statement that the database accepts.", "quantifier": "all tables", "why_tests_cant": "positions of virtual columns and constraints are unbounded", "anchors": ["compiler/extensions/python/freemarker/SqlTable.py.ftl:_get_create_table_query,create_table"]}
{"id": "C51", "title": "Relocated tables live in the database they are relocated to", "statement": "Opening a database from a file with a relocation map attaches each file once under a name of its own, uses this name in all statements of the tables relocated there and no other, and close detaches all of them and closes the connection even if detaching fails; a connection given by the user is left alone.", "quantifier": "all relocation maps, all tables", "why_tests_cant": "unbounded maps, several tables sharing a file", "anchors": ["compiler/extensions/python/freemarker/SqlDatabase.py.ftl:from_file,close,_init_tables,_attach_database,_detach_databases"]}
{"id": "C52", "title": "Offsets are computed, not supplied", "statement": "Whatever values the offset fields of an object have, if some values of them make write accept the object at a position, then initialize_offsets at this position changes offset fields only and makes write accept the object there, ending at the position initialize_offsets returned; serialize therefore succeeds without any offsets from the caller, and deserialize gives back the object with its offsets set. Offsets of single fields, of members of nested objects, of array elements and within packed arrays are covered.", "quantifier": "all schemas with offsets, all objects, all previous values of offsets, all positions", "why_tests_cant": "the position of every field depends on everything before it, including alignment, packing and offsets in nested objects and array elements", "anchors": ["compiler/extensions/python/runtime/src/zserio/serialization.py:serialize", "compiler/extensions/python/runtime/src/zserio/array.py:Array.initialize_offsets", "compiler/extensions/python/freemarker/CompoundField.inc.ftl:compound_initialize_offsets_field", "compiler/extensions/python/freemarker/Structure.py.ftl:initialize_offsets"]}
{"id": "C53", "title": "The wire format is that of the Encoding Guide", "statement": "If writing an object succeeds, the bits appended to the stream are the encoding of the object at this position as doc/ZserioEncodingGuide.md defines it: fields in order, built-in types in their documented layouts, the presence bit of auto optional fields, varsize lengths of auto arrays, varsize tags of unions, the member of the first matching choice case, alignment and offset padding, byte alignment before extended fields, and packed arrays as a descriptor, first value and signed deltas of one size per column, packed only if that is shorter. serialize and serialize_to_bytes hold exactly this encoding at position 0, padded with zeros.", "quantifier": "all schemas, all objects, all writer states (positions), all nesting depths and array lengths", "why_tests_cant": "a codec whose reader and writer share an error passes every round trip test; agreement with the documented format for every schema and value is needed for interoperability with the other languages", "anchors": ["doc/ZserioEncodingGuide.md", "compiler/extensions/python/runtime/src/zserio/array.py:Array.write", "compiler/extensions/python/runtime/src/zserio/array.py:Array.write_packed", "compiler/extensions/python/runtime/src/zserio/array.py:DeltaContext", "compiler/extensions/python/runtime/src/zserio/bitwriter.py:BitStreamWriter", "compiler/extensions/python/freemarker/Structure.py.ftl:write", "compiler/extensions/python/freemarker/Choice.py.ftl:write", "compiler/extensions/python/freemarker/Union.py.ftl:write", "compiler/extensions/python/freemarker/CompoundField.inc.ftl:compound_write_field", "compiler/extensions/python/runtime/src/zserio/serialization.py:serialize"]}
{"id": "C54", "title": "write accepts exactly the valid objects", "statement": "For every schema and object, write on a writer succeeds if and only if the object satisfies the checks its schema asks for (constraints, array lengths, parameters, ranges of range-checked integers, no removed enum items, a valid union tag or choice selector) and has an encoding in the sense of the Encoding Guide at the writer's position (values fit their types, offsets hold the positions of their fields); no other object is rejected, whatever its nesting, and an accepted one is stored as that encoding.", "quantifier": "all schemas with valid alignments and packable flags, all nesting depths, all objects of any size, all writers in any reachable state", "why_tests_cant": "Tests try single invalid objects; that no valid object of any schema is rejected, and that there is no further cause of an exception, is a statement about all of them.", "anchors": ["compiler/extensions/python/freemarker/CompoundField.inc.ftl:compound_write_field", "compiler/extensions/python/freemarker/CompoundField.inc.ftl:compound_check_constraint_field", "compiler/extensions/python/freemarker/CompoundField.inc.ftl:compound_check_array_length_field", "compiler/extensions/python/freemarker/CompoundField.inc.ftl:compound_check_parameterized_field", "compiler/extensions/python/freemarker/CompoundField.inc.ftl:compound_check_range_field", "compiler/extensions/python/freemarker/Structure.py.ftl:write", "compiler/extensions/python/runtime/src/zserio/array.py:Array.write", "compiler/extensions/python/runtime/src/zserio/array.py:Array.write_packed", "doc/ZserioEncodingGuide.md"]}
{"id": "C55", "title": "What has been read can be written again and reads the same", "statement": "For schemas without offsets and packed arrays: an object that from_reader has returned, from any bytes at any bit position, is accepted by write on every writer and by serialize and serialize_to_bytes (which leave it unchanged), unless an array length expression is negative or an enum value has been removed from its enum; and reading what they produced gives the same object again, provided there are no NaNs in float16 and float32 fields and the last extended field is not empty.", "quantifier": "all schemas without offsets and packed arrays, all byte strings, reader positions, parameters, nesting depths and array lengths, all reachable writer states", "why_tests_cant": "Tests write objects that a program has built and read them back; a tool that edits and stores foreign files relies on the other direction, for every input the reader accepts, including non-canonical encodings no writer produces.", "anchors": ["compiler/extensions/python/freemarker/Structure.py.ftl:read", "compiler/extensions/python/freemarker/Structure.py.ftl:write", "compiler/extensions/python/freemarker/Choice.py.ftl:read", "compiler/extensions/python/freemarker/Union.py.ftl:read", "compiler/extensions/python/freemarker/CompoundField.inc.ftl:compound_read_field", "compiler/extensions/python/freemarker/CompoundField.inc.ftl:compound_write_field", "compiler/extensions/python/runtime/src/zserio/array.py:Array.from_reader", "compiler/extensions/python/runtime/src/zserio/bitreader.py:BitStreamReader", "compiler/extensions/python/runtime/src/zserio/serialization.py:serialize"]}
{"id": "C56", "title": "Offsets give random access", "statement": "After an object has been written (or serialized, which sets its offsets), every part of it that has an offset can be read on its own: a BitStreamReader over the output that is set to bit position 8 * offset returns the value of the field, or, for an array with one offset per element, of the element. If the part is an object, from_reader of its class with the object's parameters returns it. This holds for offsets at any depth of nesting, whatever was written before and after, for parts outside of packed arrays.", "quantifier": "all schemas, all objects that write accepts, all fields and elements with offsets in them at any depth, all writer histories before and after", "why_tests_cant": "A test reads back one field at one offset of one object; that the checked offset is where decoding of that very part may start, independently of everything around it, is a statement about all schemas, alignments and nestings.", "anchors": ["compiler/extensions/python/freemarker/CompoundField.inc.ftl:compound_check_offset_field", "compiler/extensions/python/freemarker/CompoundField.inc.ftl:compound_write_field_inner", "compiler/extensions/python/runtime/src/zserio/array.py:Array.write", "compiler/extensions/python/runtime/src/zserio/bitreader.py:BitStreamReader.bitposition"]}
{"id": "C57", "title": "Constructors, getters, setters and indicators agree with each other", "statement": "After a structure has been constructed, every getter returns the argument given for its field or the field's default, and all extended fields are present. After any sequence of setter and reset calls every getter returns the value of the last call for its field, other fields are unchanged, and an extended field is present exactly if it was present before or one of the calls was for an absent extended field. is_set tells whether the getter returns None, and a field that is optional without a condition is used when it is set; whether one with a condition is used is not changed by setters of this or later fields, and in an object that was read it is used exactly if it is set. Two objects of a class with the same parameters, the same getters and the same is_present indicators cannot be told apart: they write the same bits, have the same sizes and offsets, compare equal to the same objects and have the same hash code; so an object can be filled by the constructor or by setters in any order. The constructor of a union or choice with one argument does what the setter does, and raises PythonRuntimeException for more than one; the setter of a union selects its field, whatever was selected before.", "quantifier": "all structures, unions and choices, all argument lists, all sequences of setter and reset calls, all values of the declared Python types including None", "why_tests_cant": "Tests call a few setters in one order. That no order and no history of calls, including those that leave different internal counters of extended fields behind, is visible in any method needs an argument about all of them.", "anchors": ["compiler/extensions/python/freemarker/Structure.py.ftl:__init__", "compiler/extensions/python/freemarker/Structure.py.ftl:field.setter", "compiler/extensions/python/freemarker/Structure.py.ftl:isPresentIndicatorName", "compiler/extensions/python/freemarker/CompoundField.inc.ftl:compound_setter_field", "compiler/extensions/python/freemarker/CompoundField.inc.ftl:compound_getter_field", "compiler/extensions/python/freemarker/Union.py.ftl:__init__", "compiler/extensions/python/freemarker/Choice.py.ftl:__init__"]}
{"id": "C58", "title": "Objects of a class are independent of each other", "statement": "A change in place of a list or bytearray that a getter of one object returned is not visible through the getters of any other object of the class, provided the user did not pass the same list or bytearray to both constructors. A new object shows the arguments it was given and the defaults of the others; an array that is not optional shows an empty list for None, an optional one None.", "quantifier": "all structures, all argument lists of two constructor calls with anything in between, all fields, all changes", "why_tests_cant": "Sharing shows only when two objects live at the same time and one is changed in place; tests construct an object and look at it. That no pair of fields of any two objects ever shares memory is a statement about all classes and all argument lists.", "anchors": ["compiler/extensions/python/freemarker/Structure.py.ftl:field_default_value", "compiler/extensions/python/freemarker/CompoundField.inc.ftl:compound_setter_field", "compiler/extensions/python/runtime/src/zserio/array.py:Array.__init__"]}
{"id": "C59", "title": "Code emitted for expressions is valid Python and has the value the language defines", "statement": "For every well typed expression of a schema (array lengths, conditions, constraints, selectors, arguments, offsets, functions) the code the generator emits is one Python expression, and whenever the expression has a value by the rules of the language (operators and precedence as in Java, on unbounded integers; lengthof, valueof, numbits, isset as documented), evaluating the code gives this value.", "quantifier": "all expression trees the parser makes, of any depth, all types of names, fields and functions, all values of them", "why_tests_cant": "The generator pastes the source text of operands together without adding parentheses, so correctness depends on how the precedences and associativities of two languages relate in every nesting of 18 binary operators, four unary ones and the conditional operator.", "anchors": ["compiler/core/src/zserio/extension/common/ExpressionFormatter.java:append", "compiler/extensions/python/src/zserio/extension/python/PythonExpressionFormattingPolicy.java:getBang", "compiler/extensions/python/src/zserio/extension/python/PythonExpressionFormattingPolicy.java:getValueOf", "compiler/extensions/python/src/zserio/extension/python/PythonExpressionFormattingPolicy.java:getDivide", "compiler/core/src/zserio/ast/Expression.java:evaluate", "compiler/core/antlr/ZserioParser.g4:expression"]}
{"id": "C60", "title": "Any stream holding an object's encoding is decoded to that object, and encodings are uniquely decodable", "statement": "Wherever a byte buffer holds, at the reader's bit position, the bits the Encoding Guide assigns to an object of a schema, whoever produced them and whatever bits surround them, from_reader returns that object and stands behind its last bit; deserialize, deserialize_from_bytes and deserialize_from_file do the same for a whole buffer, with any padding in the last byte. Hence no encoding is a beginning of another of the same type and parameters, and two objects with the same bytes are equal (for types with extended fields or an implicit array: as whole buffers).", "quantifier": "all schemas meeting the compiler's conditions, all objects that satisfy the checks of write and have an encoding, all bit positions, all surrounding bits, all paddings", "why_tests_cant": "Tests decode what the same implementation wrote, at few positions and with zero padding; a decoder that relied on its own writer's habits or two objects sharing an encoding would go unnoticed.", "anchors": ["compiler/extensions/python/runtime/src/zserio/bitreader.py:BitStreamReader", "compiler/extensions/python/runtime/src/zserio/serialization.py:deserialize", "compiler/extensions/python/runtime/src/zserio/serialization.py:deserialize_from_bytes", "compiler/extensions/python/freemarker/Structure.py.ftl:from_reader", "doc/ZserioEncodingGuide.md"]}
{"id": "C61", "title": "Reading an object depends only on the bits it consumes, and a stream cut short is refused", "statement": "For types without extended fields and implicit arrays, from_reader returns the same object and ends at the same position on every two streams that agree up to where the first reading ended, whatever follows and wherever the streams end. A stream that ends before the object does gives PythonRuntimeException, never another object: in particular deserialize of a serialized buffer with fewer bits, and deserialize_from_bytes and deserialize_from_file of serialized bytes without the last ones, always raise.", "quantifier": "all schemas meeting the compiler's conditions, all readers, positions, bits and continuations, all cut points", "why_tests_cant": "Tests read complete buffers, at most cut at a few places; that no prefix of any buffer of any type is taken for an object is a statement about all cut points of all objects.", "anchors": ["compiler/extensions/python/runtime/src/zserio/bitreader.py:BitStreamReader", "compiler/extensions/python/runtime/src/zserio/array.py:Array.read", "compiler/extensions/python/runtime/src/zserio/array.py:Array.read_packed", "compiler/extensions/python/runtime/src/zserio/serialization.py:deserialize_from_bytes", "compiler/extensions/python/freemarker/Structure.py.ftl:from_reader"]}
{"id": "C62", "title": "Names of generated Python code follow the schema names and do not clash", "statement": "A generated Python name equals the schema name up to case and underscores, and a name already in snake case is kept. Underscores are inserted exactly in front of a capital that follows a small letter, or that follows a digit or capital and precedes a small letter (HTTPServer2Name gives http_server2_name). In every scope the compiler accepts, all methods, properties, indicators, resetters, constants and attributes of the generated class have different names, none of them a Python keyword, and so have the constructor arguments; the same holds for enum items and bitmask values, services, clients and Pub/Sub classes; the modules of a package, __init__, api and the packages below have different names, and so do the symbols api.py exports.", "quantifier": "all compound types, enumerations, bitmasks, services, Pub/Subs and packages whose names pass the compiler's checks, any number of members, any identifiers", "why_tests_cant": "Tests check a few clashing schemas; that the checks leave no pair of identifiers whose generated names collide is a statement about all identifiers.", "anchors": ["compiler/extensions/python/src/zserio/extension/python/PythonSymbolConverter.java:PythonSymbolConverter", "compiler/extensions/python/src/zserio/extension/python/PythonGeneratedSymbolsClashChecker.java:PythonGeneratedSymbolsClashChecker", "compiler/extensions/python/src/zserio/extension/python/PythonScopeSymbolClashChecker.java:PythonScopeSymbolClashChecker", "compiler/extensions/python/src/zserio/extension/python/PythonApiClashChecker.java:PythonApiClashChecker", "compiler/extensions/python/freemarker/Structure.py.ftl", "compiler/extensions/python/freemarker/CompoundField.inc.ftl"]}
{"id": "C63", "title": "Generated code implements the declarations of the schema", "statement": "For every compound type of a schema the compiler accepts, the generated class has the declared fields in the declared order; every field is read, written, sized, range-checked and hashed with the runtime function, array class, number of bits and bounds of its declared type; conditions, constraints, array lengths, offsets, dynamic bit lengths, type arguments and selectors, including calls of functions of this and other objects, evaluate to what the language defines.", "quantifier": "all schemas the compiler accepts, all compound types, all built-in types and bit lengths, all expressions and objects", "why_tests_cant": "Tests compile a fixed set of schemas; the mapping must hold for every combination of declarations and for every expression tree.", "anchors": ["compiler/extensions/python/src/zserio/extension/python/RuntimeFunctionDataCreator.java:RuntimeFunctionDataCreator", "compiler/extensions/python/src/zserio/extension/python/PythonNativeMapper.java:PythonNativeMapper", "compiler/extensions/python/src/zserio/extension/python/CompoundFieldTemplateData.java:CompoundFieldTemplateData", "compiler/core/src/zserio/extension/common/ExpressionFormatter.java:ExpressionFormatter", "compiler/extensions/python/freemarker/CompoundField.inc.ftl"]}
{"id": "C64", "title": "Schemas the compiler accepts round trip", "statement": "A schema that passes the checks of the compiler gives classes for which serialize and deserialize round trip, bitsizeof is exact, encodings are decoded and write accepts exactly the objects that have an encoding: no further condition on the schema is needed.", "quantifier": "all schemas the compiler accepts, all types, all objects of a type with valid values", "why_tests_cant": "Whether the static checks suffice for the dynamic property is a statement about all schemas.", "anchors": ["compiler/core/src/zserio/ast/StructureType.java:check", "compiler/core/src/zserio/ast/Field.java:check", "compiler/core/src/zserio/ast/CompoundType.java:hasFieldBranchWithoutImplicitArray", "compiler/core/src/zserio/ast/ArrayInstantiation.java:check", "compiler/core/src/zserio/ast/DynamicBitFieldInstantiation.java:evaluate"]}
{"id": "C65", "title": "Literals mean in generated code what they mean in the schema", "statement": "Every integer literal of a schema (decimal, hexadecimal, octal, binary, with digits and prefixes in either case) has its documented value both in the calculations of the compiler and in the Python code emitted for it; every floating point literal, with or without suffix, is emitted as a Python literal of the same decimal number; every string literal is emitted as a Python literal of the documented characters; and every integer the compiler has calculated (items of enumerations and bitmasks, numbers of bits, bounds) is emitted as a Python literal of that number.", "quantifier": "all literals the lexer accepts (any number of digits and characters, all notations and escapes) and all integers", "why_tests_cant": "Literals are unbounded texts in seven notations; tests use a handful of constants and no octal escape, so the notations on which Java and Python disagree stay unseen.", "anchors": ["compiler/core/antlr/ZserioLexer.g4:STRING_CHARACTER", "compiler/core/src/zserio/ast/Expression.java:stripExpressionText", "compiler/extensions/python/src/zserio/extension/python/PythonExpressionFormattingPolicy.java:getStringLiteral", "compiler/extensions/python/src/zserio/extension/python/PythonLiteralFormatter.java:formatDecimalLiteral", "doc/ZserioLanguageOverview.md:Literals"]}
{"id": "C66", "title": "Compile-time values and bounds of integer expressions are true of their runtime values", "statement": "Whenever every field, parameter, element, length and function used in an integer expression keeps to the bounds its declaration gives, the constant value and the lower and upper bound the compiler derives for the expression are true of the value the expression has when an object is read or written; hence a dynamic bit field is never longer than the compiler takes it to be and all its values are within the bounds used for it; and the compiler accepts every expression whose value is defined.", "quantifier": "all integer expressions of any depth, all declarations, all objects", "why_tests_cant": "Bounds are relations over all values of all operands; tests compile a few schemas with small constants and cannot see an interval rule that is wrong for negative operands or for shifts that are not constant.", "anchors": ["compiler/core/src/zserio/ast/ExpressionIntegerValue.java:ExpressionIntegerValue", "compiler/core/src/zserio/ast/Expression.java:evaluate", "compiler/core/src/zserio/ast/DynamicBitFieldInstantiation.java:evaluate", "compiler/extensions/python/src/zserio/extension/python/RuntimeFunctionDataCreator.java:createForHashCodeFunc", "doc/ZserioLanguageOverview.md:Expressions"]}
{"id": "C67", "title": "The code for packed arrays that generated code calls is generated", "statement": "For every schema the compiler accepts, every method for packed arrays (and every packing context and element factory) that can be called while an object is read, written or measured exists in the generated code; it is generated only for types that occur within packed arrays; a type counts as packable exactly if it holds a packable field that is not of its own type (or is a union with fields); no type contains itself through another type; and the packing context of every type is finite.", "quantifier": "all schemas (any number of types, fields and nestings, with recursive types)", "why_tests_cant": "Whether a method is generated is decided by a traversal of the whole type graph; tests contain a few type graphs, and the only packed recursive array in them has built-in fields only.", "anchors": ["compiler/core/src/zserio/extension/common/PackedTypesCollector.java:visitCompound", "compiler/core/src/zserio/ast/CompoundType.java:hasPackableField", "compiler/core/src/zserio/ast/CompoundType.java:checkIndirectRecursion", "compiler/extensions/python/freemarker/Structure.py.ftl:usedInPackedArray", "compiler/extensions/python/freemarker/CompoundField.inc.ftl:define_packing_context"]}
{"id": "C68", "title": "Enum items, bitmask values and constants have the documented values", "statement": "In every enumeration the compiler accepts, an item without initializer has the value of its predecessor plus one (the first item zero) and an item with initializer the value of its expression; all values are distinct and in the range of the base type, and every enumeration for which this is so is accepted. The generated class has exactly one member per item, found by value, by attribute and by from_name; write refuses exactly the removed items. In every accepted bitmask a value without initializer is the first bit not used by its predecessor (the first value 1), all values are distinct, not negative and accepted by from_value; str of a bitmask names exactly the values whose bits are all set. The value of every accepted integer constant in the generated code is in the range of its type.", "quantifier": "for all lists of items with and without initializer expressions, all integer base types, all bitmask values and all constant expressions", "why_tests_cant": "the lists of items and the expressions are unbounded, and each check of the compiler depends on all earlier items", "anchors": ["compiler/core/src/zserio/ast/EnumType.java:evaluate,check", "compiler/core/src/zserio/ast/EnumItem.java:evaluate", "compiler/core/src/zserio/ast/BitmaskType.java:evaluate,getNextValue,check", "compiler/core/src/zserio/ast/BitmaskValue.java:evaluate", "compiler/core/src/zserio/ast/Constant.java:check", "compiler/core/src/zserio/ast/ExpressionUtil.java:checkIntegerExpressionRange", "compiler/extensions/python/freemarker/Enumeration.py.ftl", "compiler/extensions/python/freemarker/Bitmask.py.ftl", "compiler/extensions/python/runtime/src/zserio/enum.py"]}
{"id": "C69", "title": "Choices select the documented branch", "statement": "For every choice the compiler accepts, no two case labels have the same value, and the generated code is valid and takes the branch that has a label equal to the selector, the default branch if there is none, and raises if there is no default branch either. Every choice whose labels are distinct constants of the type of the selector is accepted, except boolean choices with a default branch and both values as labels.", "quantifier": "for all numbers of branches and labels, all label expressions, all selector types (integer, boolean, enumeration, bitmask) and all selector values", "why_tests_cant": "labels are arbitrary constant expressions whose equality the compiler decides by its own evaluation or by comparing their text; the generated statement depends on the number of labels and branches", "anchors": ["compiler/core/src/zserio/ast/ChoiceType.java:check", "compiler/core/src/zserio/ast/ExpressionComparator.java:equals", "compiler/extensions/python/src/zserio/extension/python/ChoiceEmitterTemplateData.java", "compiler/extensions/python/freemarker/Choice.py.ftl:choice_if,choice_selector_condition"]}
{"id": "C70", "title": "Expressions of an accepted schema use only what has been read, and calls of functions end", "statement": "If the compiler accepts a schema, the generated code for an array length, a parameter, an offset, an optional condition or a bit size of a field gives the same result on all objects that agree on the parameters and the preceding fields, and the code for a constraint on all that agree on the fields up to the constrained one; what functions called from them use is included. Every name in such an expression has a value when the preceding fields have been read. No object makes calls of functions go on without end. False if a field has the name of a constant: the generated function may read a field that has not been read, or use the constant instead of the field.", "quantifier": "all accepted schemas, fields, expressions, functions and objects", "why_tests_cant": "Unbounded families of schemas, expressions, call chains and objects; a test sees one schema, and code that reads a field too early often works on the tested objects.", "anchors": ["compiler/core/src/zserio/ast/ZserioAstScopeSetter.java: visitField, visitChoiceField, visitFunction", "compiler/core/src/zserio/ast/Scope.java: addSymbol, findSymbol", "compiler/core/src/zserio/ast/Expression.java: evaluate, evaluateFunctionCallExpression, evaluateIdentifier", "compiler/core/src/zserio/ast/ZserioAstEvaluator.java: visitExpression"]}
{"id": "C71", "title": "Names stand for the documented symbols", "statement": "A name without package stands for the symbol of the own package if there is one, else for the symbol imported singly under that name, else for the symbol of that name in the packages imported as a whole; it is an error if several are left at the deciding step. A name with package stands for that symbol if it is imported or local, in type references and in expressions. The order of imports does not matter. Importing one more package or adding a symbol to another package never silently changes the meaning of a name. False where a single import meets a local symbol or an import of its whole package, for a package that imports its own symbol, and in expressions whose first name is a field.", "quantifier": "all sets of packages and symbols, all lists of imports in any order, all names, with or without a top level package", "why_tests_cant": "The meaning of a name depends on all packages and imports together; tests cover a few combinations and not all orders.", "anchors": ["compiler/core/src/zserio/ast/Package.java: resolveImports, getVisibleSymbol, getAllVisibleSymbols", "compiler/core/src/zserio/ast/Import.java: resolveImport", "compiler/core/src/zserio/ast/TypeReference.java: resolve", "compiler/core/src/zserio/ast/Expression.java: evaluateIdentifier, evaluatePackageDotExpression", "doc/ZserioLanguageOverview.md: Packages and Imports"]}
{"id": "C72", "title": "Generated modules can be imported in any order", "statement": "For every schema the compiler accepts, every generated Python module can be imported, first or after any others, whatever recursion there is between the types of the schema. This holds exactly if no type is used by its own definition under the name of a subtype: then the import of the module of that type raises AttributeError if it comes before that of the subtype.", "quantifier": "all schemas (any number of declarations and references, recursive types included) and all sequences of imports", "why_tests_cant": "circular imports work or fail depending on the order of imports and on what a module evaluates while it is imported; tests import the modules of a few schemas in one order", "anchors": ["compiler/extensions/python/src/zserio/extension/python/PythonTemplateData.java: getPackageImports, getSymbolImports", "compiler/extensions/python/freemarker/Subtype.py.ftl", "compiler/extensions/python/freemarker/Constant.py.ftl", "compiler/extensions/python/freemarker/Structure.py.ftl", "compiler/extensions/python/freemarker/SqlTable.py.ftl", "compiler/extensions/python/freemarker/FileHeader.inc.ftl: all_imports"]}
{"id": "C73", "title": "A template instantiation is the template with the arguments in place of the parameters", "statement": "For every template and all arguments, the types of the parameters, fields and functions of the instantiation are those of the template with the types of the arguments in place of the template parameters, wherever template and arguments are written and whatever names are visible there; the instantiation is accepted exactly if the template and the arguments stand for types and the numbers of arguments are right. A name E.ITEM in an expression of the template, with a template parameter E, is the item of the argument. The latter is false: the name of the argument is looked up in the package of the template, among its fields first.", "quantifier": "all packages, imports, templates, nested arguments and expressions", "why_tests_cant": "which symbol a substituted name means depends on all symbols visible in the packages of the template and of the argument", "anchors": ["compiler/core/src/zserio/ast/TemplatableType.java: instantiate", "compiler/core/src/zserio/ast/TypeReference.java: resolve, instantiate", "compiler/core/src/zserio/ast/Expression.java: instantiate, createInstantiationTree", "compiler/core/src/zserio/ast/ZserioAstTemplator.java: visitTypeReference", "doc/ZserioLanguageOverview.md: Templates"]}
{"id": "C74", "title": "References to one template with the same arguments have one type, under the documented name", "statement": "Every reference to a template with the same arguments, from whatever package, has as its type one and the same generated class, and references to different templates or with different arguments have different ones. Without an `instantiate` the class is generated in the package of the template, under a name that nothing else in the package has; with one it is generated in the package and under the name that the `instantiate` gives. Instantiation comes to an end.", "quantifier": "all sequences of references to templates from all packages with all arguments (built-in types, types, instantiations, subtypes, `instantiate` types, nested to any depth), all sets of visible `instantiate` types, all local symbols of the packages, all bodies of templates", "why_tests_cant": "Tests instantiate a few templates; which references share a class depends on all the others, on the order in which they are visited and on 32-bit hash codes of names of any length.", "anchors": ["compiler/core/src/zserio/ast/ZserioAstTemplator.java:instantiate", "compiler/core/src/zserio/ast/ZserioAstTemplator.java:generateInstantiationName", "compiler/core/src/zserio/ast/ZserioAstTemplator.java:resolveInstantiationNames", "compiler/core/src/zserio/ast/TemplateArgument.java:equals", "compiler/core/src/zserio/ast/Package.java:getVisibleInstantiateType", "compiler/core/src/zserio/tools/HashUtil.java:hash"]}
{"id": "C75", "title": "Accepted compound types are recursive only where an object can end, and have type info", "statement": "The compiler accepts a schema exactly if no compound types contain each other and none contains itself in a field that is neither optional nor an array that can be empty. Each type of an accepted schema then has finite objects, and the type_info method of the generated class returns (walkers, the JSON writer and the tree creator start with it).", "quantifier": "all schemas, with any number of compound types, fields, parameters, functions and template arguments and any recursion among them", "why_tests_cant": "Tests have a few recursive types; that the check ends and that the recursion of type_info ends is a statement about all graphs of types.", "anchors": ["compiler/core/src/zserio/ast/CompoundType.java:checkDirectRecursion", "compiler/core/src/zserio/ast/CompoundType.java:checkIndirectRecursion", "compiler/extensions/python/freemarker/TypeInfo.inc.ftl:member_info_field", "compiler/extensions/python/freemarker/Structure.py.ftl:type_info", "compiler/extensions/python/src/zserio/extension/python/CompoundFieldTemplateData.java:createOptional"]}
{"id": "C76", "title": "Setting offsets stores at the place that the offset expression stands for", "statement": "For every offset expression the compiler accepts, the code that checks the offset reads the field or array element the expression stands for, and the code of initialize_offsets assigns to this very place and to nothing else, so that afterwards the expression has the assigned value, also if the place is in an object that is shared through parameters. No two fields of a structure have the same path as offset.", "quantifier": "all offset expressions (any paths of names, members and indexed elements, resolved in any way), all states of the objects including any sharing, all values and indices", "why_tests_cant": "Tests have a few offset expressions; that the formatter puts exactly one assignment at the end of the code, whatever the nesting of members and elements, is a statement about all expressions.", "anchors": ["compiler/core/src/zserio/ast/ZserioParseTreeChecker.java:visitFieldOffset", "compiler/core/src/zserio/ast/Field.java:checkOffsetExpression", "compiler/core/src/zserio/ast/StructureType.java:checkDuplicatedOffsets", "compiler/core/src/zserio/extension/common/ExpressionFormatter.java:formatSetter", "compiler/extensions/python/src/zserio/extension/python/PythonExpressionFormattingPolicy.java:formatFieldAccessor", "compiler/extensions/python/freemarker/CompoundField.inc.ftl:define_offset_setter"]}
{"id": "C77", "title": "Whatever has been read can be walked over and written as JSON", "statement": "If reading an object succeeds, whatever the bits are and wherever in the stream the reader stands, then the object has the type and parameters asked for, every used field holds a value of its declared type (nested objects with the parameters their owner passes), every unused field None and every absent extended field its default. Walking over it then reports one tree and raises nothing of its own; to_json_string gives a text that stands for that tree; and from_json_string on that text gives the same object back.", "quantifier": "all schemas (any nesting, arrays, packing, offsets, choices, unions, extended fields), all bytes and reader positions, all parameters, all observers, all JSON configurations and ways the text arrives in chunks", "why_tests_cant": "Tests read a handful of well-formed messages; that no sequence of bits leads to an object on which another API function fails is a statement about all bits.", "anchors": ["compiler/extensions/python/freemarker/Structure.py.ftl:read", "compiler/extensions/python/freemarker/Choice.py.ftl:read", "compiler/extensions/python/freemarker/Union.py.ftl:read", "compiler/extensions/python/runtime/src/zserio/array.py:Array.from_reader", "compiler/extensions/python/runtime/src/zserio/walker.py:Walker.walk", "compiler/extensions/python/runtime/src/zserio/debugstring.py:to_json_string"]}
{"id": "C78", "title": "Several objects in one JSON stream are read back one by one", "statement": "If one JsonWriter is used to walk over several objects, with any white space written between them, then one JsonReader on this text, asked for the types of the objects in turn, returns the objects in their order, and one more read raises; the text of each object is the one to_json_string gives.", "quantifier": "all lists of objects that JSON keeps (C46) of any types, all configurations, all white space in between, all ways in which the stream delivers the text in blocks", "why_tests_cant": "A test has one stream with two objects; that no state of writer, tokenizer, parser or adapter is carried from one object to the next is a statement about all objects and block boundaries.", "anchors": ["compiler/extensions/python/runtime/src/zserio/json.py:JsonReader.read", "compiler/extensions/python/runtime/src/zserio/json.py:JsonParser.parse", "compiler/extensions/python/runtime/src/zserio/json.py:JsonWriter", "compiler/extensions/python/runtime/src/zserio/json.py:JsonTokenizer"]}
{"id": "C79", "title": "The type information of an object that has been read is true of it", "statement": "For every object that from_reader returns, and every object in it, the lambdas in type_info() called with the object (and the index of an array element) give what the object holds: OPTIONAL tells whether a field is used, and one that is not used is None; CONSTRAINT gives true for a used field; ARRAY_LENGTH gives the length of the array; TYPE_ARGUMENTS give the parameters of nested objects; the first of CASES with the value of SELECTOR among its labels, or the last one without labels, leads to the field choice_tag names; choice_tag of a union is the position of its field in FIELDS. The attributes of the members, with their types, determine the encoding of every object: alignment, offsets, packing, implicit and automatic lengths, optional and extended members.", "quantifier": "all schemas, all bytes and positions from which an object can be read, all objects nested in it", "why_tests_cant": "Tests look at the type information of a few generated types; whether lambdas evaluated on the finished object agree with the expressions evaluated while it was being read, with half of the fields missing, is a statement about all schemas and inputs.", "anchors": ["compiler/extensions/python/freemarker/TypeInfo.inc.ftl:member_info_field_attributes", "compiler/extensions/python/freemarker/TypeInfo.inc.ftl:cases_info", "compiler/extensions/python/freemarker/Choice.py.ftl:type_info", "compiler/extensions/python/freemarker/Structure.py.ftl:type_info", "compiler/extensions/python/freemarker/Union.py.ftl:type_info", "compiler/extensions/python/runtime/src/zserio/typeinfo.py:MemberAttribute"]}
{"id": "C80", "title": "New versions of a schema read old data as the evolution guide promises", "statement": "If a schema changes only by added or removed-marked enumeration items, cases added to choices without default, fields added to unions and extended fields appended to the structure at the top, then every stream that the old version's from_reader (deserialize, deserialize_from_bytes, deserialize_from_file) reads is read by the new version as the same object ending at the same position, appended fields absent and at their defaults; and an application of the old version reads the common fields of objects of a version that appends fields (with or without extend) at the top or marks items as removed.", "quantifier": "all pairs of schemas related by such changes, all bytes and positions, all nesting, packed or not", "why_tests_cant": "Tests check a few pairs of versions; the promise is about all schemas, including choices inside packed arrays that get something to pack only in the new version, where the generated code switches from plain to packed methods.", "anchors": ["doc/ZserioSchemaEvolutionGuide.md", "compiler/extensions/python/freemarker/Choice.py.ftl:read", "compiler/extensions/python/freemarker/Union.py.ftl:read", "compiler/extensions/python/freemarker/Enumeration.py.ftl:from_reader", "compiler/extensions/python/freemarker/Structure.py.ftl:read", "compiler/extensions/python/runtime/src/zserio/serialization.py:deserialize"]}
{"id": "C81", "title": "Names in generated classes and methods mean what the generator meant", "statement": "The module generated for a type of an accepted schema can be imported; its class has every property, setter, method, class method, static method and constant of the interface under its name; and in the defaults of the constructor's arguments and in every method the names of packages, libraries and builtins mean the generated package, the library and Python's builtin.", "quantifier": "all scopes the checks of the generator accept (structures, choices, unions, databases), all names of top-level packages it accepts, all schemas of imports", "why_tests_cant": "Tests compile some schemas with some names; whether a name of a member, local variable, package, library or builtin takes another's place depends on combinations of names in the schema with names in templates.", "anchors": ["compiler/extensions/python/freemarker/Structure.py.ftl", "compiler/extensions/python/freemarker/Choice.py.ftl", "compiler/extensions/python/freemarker/Union.py.ftl", "compiler/extensions/python/freemarker/SqlDatabase.py.ftl", "compiler/extensions/python/src/zserio/extension/python/PythonTopLevelPackageClashChecker.java", "compiler/extensions/python/src/zserio/extension/python/CompoundTypeTemplateData.java", "compiler/extensions/python/src/zserio/extension/python/PythonTemplateData.java:ImportCollector"]}
{"id": "C82", "title": "Documentation comments do not change generated code", "statement": "With code comments switched on, the doc string generated for a documentation comment ends where the generator ends it, so that the code after it is the code the generator wrote; it shows every text of the comment, and its value is the text as written.", "quantifier": "all documentation comments (paragraphs, multi-line texts, see, todo, param and deprecated tags with any texts), all indentations, all code that follows", "why_tests_cant": "Tests generate some comments; whether quotes and backslashes in a text end the doc string early, or are escapes, depends on all characters before them and on how texts are put together.", "anchors": ["compiler/extensions/python/freemarker/DocComment.inc.ftl:doc_comments,doc_comment,doc_multiline", "compiler/extensions/python/freemarker/Structure.py.ftl", "compiler/extensions/python/src/zserio/extension/python/DocCommentsTemplateData.java", "compiler/core/antlr/DocComment.g4"]}
{"id": "C83", "title": "Api modules reach all of the generated code", "statement": "For every package of an accepted schema, every part of its name, and the default package if there is one, the generated api module can be imported; api.sub1.sub2.Name is the type or constant Name of the package below, api.sub1 is the api module of the subpackage, and nothing else is there.", "quantifier": "all accepted sets of packages with any symbols, all packages with an api module, all paths of subpackages", "why_tests_cant": "Tests import the api modules of some schemas; whether packages without symbols, common parts of names, default packages and equal names of symbols, modules and subpackages are put together right depends on the whole tree of packages.", "anchors": ["compiler/extensions/python/src/zserio/extension/python/ApiEmitter.java", "compiler/extensions/python/src/zserio/extension/python/ApiEmitterTemplateData.java", "compiler/extensions/python/freemarker/api.py.ftl", "compiler/extensions/python/src/zserio/extension/python/PythonApiClashChecker.java", "compiler/extensions/python/src/zserio/extension/python/PythonPackageWithModuleClashChecker.java", "compiler/extensions/python/src/zserio/extension/python/PythonModuleClashChecker.java", "compiler/extensions/python/src/zserio/extension/python/InitPyEmitter.java"]}
{"id": "C84", "title": "Constants and initializers are values of their types", "statement": "Every constant the compiler accepts can be imported from the generated package and its value is one that a field of the constant's type can hold; a field with an accepted initializer of an integer type (including bit fields of a length the compiler knows) can be written with the value of its initializer, at any position of any stream. Values out of range are rejected by the compiler.", "quantifier": "all lists of constants of boolean, standard, bit field and variable-length integer types that use each other in any way, all expressions over them, all initializers, all writers", "why_tests_cant": "The compiler evaluates expressions in Java with big integers and Python evaluates the emitted text: agreement is a statement about all expressions and types, tests compare a few literals.", "anchors": ["compiler/core/src/zserio/ast/ExpressionUtil.java:checkIntegerExpressionRange", "compiler/core/src/zserio/ast/Constant.java:check", "compiler/core/src/zserio/ast/Field.java:check", "compiler/core/src/zserio/ast/Expression.java:evaluateConstant", "compiler/core/src/zserio/ast/DynamicBitFieldInstantiation.java:evaluate", "compiler/extensions/python/freemarker/Constant.py.ftl"]}
{"id": "C85", "title": "Expressions without warnings read no absent optional field", "statement": "If the compiler gives no optional-field-reference warning for an expression (offset, type argument, optional condition, constraint, array length or bit field length of a field, result of a function, selector of a choice), then evaluating it never reads an optional field which is absent, in any object in which fields are present when their conditions hold, with the short circuit of && and ||.", "quantifier": "all sets of compound types with optional fields, all expressions, all objects and everything reachable from them", "why_tests_cant": "The warning is a static analysis: it is right only if it is for all expressions and for all objects. Tests show warnings for some expressions.", "anchors": ["compiler/core/src/zserio/ast/Field.java:checkOptionalReferences", "compiler/core/src/zserio/ast/Field.java:haveFieldsDifferentOptional", "compiler/core/src/zserio/ast/Expression.java:getReferencedOptionalFields", "compiler/core/src/zserio/ast/Expression.java:addReferencedOptionalField", "compiler/core/src/zserio/ast/ExpressionComparator.java:equals", "compiler/core/src/zserio/ast/Function.java:checkOptionalReferencesInFunction", "compiler/core/src/zserio/ast/ChoiceType.java:checkOptionalReferencesInSelector", "doc/ZserioUserGuide.md:optional-field-reference"]}
{"id": "C86", "title": "Expressions are read with the documented precedence", "statement": "The tree the compiler makes of an expression of a schema has all tokens of the expression in their order, and follows the documented lines of operators: operators of a line above are evaluated first, operators of one line from the left to the right, ?: from the right to the left. Every tree that follows the lines is what its tokens are read as, so the documentation leaves no choice; the trees are of the shape on which the code generated for expressions relies.", "quantifier": "all token sequences, all expression trees", "why_tests_cant": "There are infinitely many expressions and nestings of operators; tests read some of them.", "anchors": ["compiler/core/antlr/ZserioParser.g4:expression", "compiler/core/src/zserio/ast/ZserioAstBuilder.java:visitShiftExpression", "compiler/core/src/zserio/ast/ZserioAstBuilder.java:visitTernaryExpression", "doc/ZserioLanguageOverview.md:Operator Precedence"]}
{"id": "C87", "title": "A schema is read as the words it consists of", "statement": "The text of a schema is split into the operators, reserved words, identifiers and literals it is written with: words that are separated where needed are read as exactly these words, whatever white space, line comments and block comments are between them; nothing is lost or made up; a word is always the longest possible one; an identifier is never a reserved word, and each literal has a form the language gives a meaning; a text is refused at this stage only if it has a character no word begins with. Exception found: a comment written /**/ does not end there if another */ follows later. A comment is a documentation comment if it begins with /**, one in Markdown if it begins with /*!, and a plain one otherwise.", "quantifier": "All texts (lists of code points); all sequences of words with any white space and comments between them", "why_tests_cant": "Which rule wins at a place depends on all rules and on all text that follows; tests try a few texts, while the property is about every text and every pair of neighbouring words. The lost declarations behind /**/ show up only with a further comment.", "anchors": ["compiler/core/antlr/ZserioLexer.g4", "compiler/core/antlr/ZserioParser.g4 (expression, literal)", "compiler/core/src/zserio/ast/Expression.java (evaluation of literals)", "doc/ZserioLanguageOverview.md:72-107, 1229-1300"]}
{"id": "C88", "title": "A schema consists of the files of the packages it imports, each read once", "statement": "The compiler reads the input file and the files of all packages that are imported, directly or indirectly, and no others; none is read twice, whatever imports what (cycles included), and reading ends. Every package is the one declared in the file of its name below the source path. A schema is accepted by this step exactly if the input file exists and contains the package of its name (or none) and every import of these files names a package that exists in its file, and a symbol of it. The order of imports does not matter. False: an absolute name of the input file is never accepted without source path or top level package, although documented.", "quantifier": "all sets of files with any imports among them, all source paths, top level packages and names of input files", "why_tests_cant": "Import graphs are unbounded and cyclic; tests cover a few of them and cannot show that reading ends or that nothing is read twice for all.", "anchors": ["compiler/core/src/zserio/tools/ZserioTool.java: parse, parsePackage, parseImportedPackages", "compiler/core/src/zserio/tools/InputFileManager.java: getFileFullName, registerFile, isFileRegistered", "compiler/core/src/zserio/ast/ZserioAstBuilder.java: visitPackageDeclaration, visitPackageNameDefinition, visitImportDeclaration", "compiler/core/src/zserio/ast/PackageName.java: toFilesystemPath", "doc/ZserioLanguageOverview.md: Packages and Files"]}
{"id": "C89", "title": "A schema can be read in one way only", "statement": "The words of a schema determine its declarations: no two different schemas (packages, imports, constants, types with their fields, parameters, templates, functions, conditions, constraints, offsets and so on) are written with the same words, and a declaration ends at the same word whatever follows it. So a text is read as the schema it was written as, whatever white space and comments are between the words. Two forms of the grammar are exceptions: T<name>, which may be a template argument or the length of a bit field, and fields whose type and name could be an expression and whose constraint could be a type and a name, which may be a field with an offset. Every word and operator of the language is read as one token of its own, and so is the name of every built-in type.", "quantifier": "all schemas of any size, with any expressions and any nesting of types and templates", "why_tests_cant": "The grammar uses < and > for templates, lengths, comparisons and shifts and : for constraints, offsets and conditionals; whether some combination has two readings is a question about all texts, and the parser chooses one without a message.", "anchors": ["compiler/core/antlr/ZserioParser.g4: packageDeclaration and all rules below it", "compiler/core/antlr/ZserioLexer.g4", "compiler/core/src/zserio/tools/ZserioTool.java: parsePackage", "doc/ZserioLanguageOverview.md"]}
{"id": "C90", "title": "Names and paths in expressions denote in generated code what they denote in the schema", "statement": "Names, dots, calls and indices in an expression (`count`, `parts[pos].total()`, `common.features.Kind.SHUT`, `MAX`, a case label `RED`) are accepted by the compiler whenever they have a meaning in the schema language, and the Python text generated for them is one expression whose value, evaluated on the generated classes and modules, is that meaning: the own field, parameter or function, the member of another object (also where it is a choice or union, which keep their fields in one slot), the element of an array, the constant, enumeration item (removed ones too) or bitmask value of the package that the name stands for. Every accepted expression is emitted as a Python expression, but for dots that follow something that is neither a typed value nor the name of a package.", "quantifier": "all schemas, packages, imports and top level packages, all expressions of names, dots, calls, indices, parentheses and sums of any depth, all objects, in classes of structures, choices and unions and outside of them, with self or owner as prefix", "why_tests_cant": "The text depends on flags that the tree builder sets while it walks, on the kind of every symbol on the path, on the class the code is emitted into and on package prefixes that are swallowed and written elsewhere; tests have a few paths only.", "anchors": ["compiler/core/src/zserio/tools/ZserioAstBuilder.java: visitDotExpression, visitIdentifierExpression", "compiler/core/src/zserio/ast/Expression.java: evaluateDotExpression, evaluatePackageDotExpression, evaluateIdentifier, evaluateFunctionCall, evaluateArrayElement", "compiler/core/src/zserio/extension/common/ExpressionFormatter.java", "compiler/extensions/python/src/zserio/extension/python/PythonExpressionFormattingPolicy.java: getIdentifier, getDot, formatSymbol", "compiler/extensions/python/src/zserio/extension/python/AccessorNameFormatter.java", "compiler/extensions/python/src/zserio/extension/python/PythonFullNameFormatter.java"]}
{"id": "C91", "title": "Running the compiler again brings the generated code up to date", "statement": "When the compiler is run on an output directory that has files of earlier runs, it skips files that seem up to date. After a successful run every generated file is as a run into an empty directory would have written it, whatever was skipped: after any sequence of runs with any options, changes, additions and removals of schema files, deletions of output files and updates of the compiler, as long as changed schema files get the time of their change, no run ended in the middle of a file, and the directory is used for one schema. A file's header determines the options and versions it was generated with. With -ignoreTimestamps this holds without conditions. If nothing changed, a run writes nothing. The sources that count are the input file and those of the packages it imports, directly or not, each of which is read once.", "quantifier": "all schemas, all numbers of files, all histories of runs and changes, all options, all times", "why_tests_cant": "Whether a stale file can survive depends on the order of arbitrarily many changes and runs and on how times compare; a test sees one history, and a stale file shows only when some other file of the same generation is used with it.", "anchors": ["compiler/extensions/python/src/zserio/extension/python/PythonDefaultEmitter.java: processTemplate, checkGeneratorDescription", "compiler/core/src/zserio/extension/common/OutputFileManager.java: checkTimestamps, registerOutputFile", "compiler/core/src/zserio/tools/InputFileManager.java: registerFile", "compiler/core/src/zserio/tools/ResourceManager.java: getLastModifiedTime", "compiler/core/src/zserio/tools/ZserioExtensionParameters.java", "compiler/extensions/python/src/zserio/extension/python/PythonExtensionParameters.java", "compiler/extensions/python/src/zserio/extension/python/TemplateDataContext.java"]}
{"id": "C92", "title": "String expressions: their value, which are constant and their length", "statement": "The Python code generated for a string expression (literals, constants, functions, +, ?:, fields) has exactly the characters the expression stands for. The compiler calculates a value exactly for constant strings (literals, constants and functions that are such, and what is joined of them), and refuses to join with + exactly if not both operands are constant strings. lengthof of a constant string has one value: the number of UTF-8 bytes of its characters, both where the compiler uses the value (values of enumerations and bitmasks, numbers of bits, bounds) and at run time.", "quantifier": "all string expressions of any depth, all constants and functions they use, all values of fields and conditions", "why_tests_cant": "Literals, nesting of constants and functions and operators combine without bound; tests use literals without escapes, for which two different notions of the value happen to be the same.", "anchors": ["compiler/core/src/zserio/ast/Expression.java: evaluate, evaluateArithmeticExpression (plus), evaluateConditionalExpression, evaluateFunctionCallExpression, evaluateLengthOfOperator", "compiler/core/src/zserio/extension/common/ExpressionFormatter.java: tryEmitExpressionAsStringValue", "compiler/extensions/python/src/zserio/extension/python/PythonExpressionFormattingPolicy.java: getStringLiteral, getLengthOf", "compiler/extensions/python/runtime/src/zserio/builtin.py: lengthof_string"]}
{"id": "C93", "title": "Which warnings are printed", "statement": "Options -withWarnings and -withoutWarnings are accepted exactly if they name warnings of the user guide (or all) and do not contradict each other. A warning is then printed exactly if the options say so: what is said about a single warning goes before what is said about all, and warnings that nothing is said about follow the default of the user guide. Order and repetition do not matter.", "quantifier": "all lists of options, all warnings", "why_tests_cant": "The outcome depends on the interplay of two lists of any length, in which specific and general options can occur in any order and number.", "anchors": ["compiler/core/src/zserio/tools/WarningsConfig.java: WarningsConfig, validate, setWarnings, setAll, isEnabled", "compiler/core/src/zserio/tools/ZserioToolPrinter.java: printWarning"]}
{"id": "C94", "title": "Rules and SQL names are unique without regard to case", "statement": "A schema is accepted exactly if every rule has an identifier (a letter, followed by letters, digits, _, -, : and .), no two rules of one package have identifiers that differ in the case of letters only, and with -withGlobalRuleIdCheck no two rules of any packages. The columns of an SQL table and the tables of an SQL database are accepted exactly if no two of them differ in case only, as SQLite would take them for the same.", "quantifier": "all numbers of packages, rule groups and rules, all tables and databases, all names", "why_tests_cant": "Whether any two of arbitrarily many names clash is a question about all pairs; tests have two names that clash.", "anchors": ["compiler/core/src/zserio/ast/RuleIdUniqueChecker.java: visitRule", "compiler/core/src/zserio/ast/RuleIdValidator.java: validate", "compiler/core/src/zserio/ast/Package.java: check", "compiler/core/src/zserio/ast/Root.java: check", "compiler/core/src/zserio/ast/SqlIdentifierValidator.java: validateSymbol", "compiler/core/src/zserio/ast/CompoundType.java: checkSqlSymbolNames"]}
{"id": "C95", "title": "Versions and the compatibility directive", "statement": "Versions are ordered as releases are, with pre-releases before their release; which texts are versions is exactly numbers separated by points and possibly -pre with a number. zserio_compatibility_version is accepted exactly with versions from 2.4.0 to that of the compiler. If the version that the schema requires is before 2.5.0, where the encoding of packed arrays changed, code is generated exactly if the schema has no packed arrays. A package that requires another version than the root package leads to a warning. An extension is used exactly if it has the same major and minor version as the core and is not later.", "quantifier": "all texts, all versions, all schemas with any number of packages, types and fields", "why_tests_cant": "Tests compare some versions; that the comparison is an order without overflow, and that no packed array in any place of any schema gets past the check, are statements about all of them.", "anchors": ["compiler/core/src/zserio/tools/ZserioVersion.java: compareTo, parseVersion", "compiler/core/src/zserio/ast/CompatibilityVersion.java: CompatibilityVersion", "compiler/core/src/zserio/extension/common/CompatibilityChecker.java: beginPackage, checkCompoundPackedArrays", "compiler/core/src/zserio/tools/ExtensionVersionMatcher.java: match"]}
{"id": "C96", "title": "SQL tables are checked and explicit parameters have one meaning", "statement": "A table is accepted exactly if it has columns, an ordinary table has no virtual ones, the columns named in PRIMARY KEY and UNIQUE are columns of the table, a WITHOUT ROWID table has a primary key, and all parameters given by one explicit name have one type. The table's parameter provider has exactly the methods that reading rows calls, each of them once. An ordinary table gives no warning exactly if it has one primary key made of its first columns in order, which cannot be NULL and which is not a single integer of a WITHOUT ROWID table.", "quantifier": "all tables with any number of columns, arguments and key columns", "why_tests_cant": "Tests have some tables with one mistake each; that no combination of column and table constraints gets past the checks, and that no name is used with two types anywhere in a table, are statements about all tables.", "anchors": ["compiler/core/src/zserio/ast/SqlTableType.java: check, checkExplicitParameters, checkPrimaryKeyConstraint, checkUniqueConstraint", "compiler/extensions/python/src/zserio/extension/python/SqlTableEmitterTemplateData.java: explicitParameters", "compiler/extensions/python/freemarker/SqlTable.py.ftl: IParameterProvider"]}
{"id": "C97", "title": "Types reported as unused can be removed", "statement": "With the warning 'unused', a type is reported exactly if the schema declares it and no subtype, type, instance of a template, constant, service, Pub/Sub or database refers to it, and it is reported once. Types that are reported can be removed: everything that the rest of the schema needs is still declared.", "quantifier": "all schemas with any number of declarations, references nested to any depth and instances of templates", "why_tests_cant": "Tests have one schema with a few types; that no reference in any place is overlooked, and that removing all reported types breaks nothing, are statements about all schemas.", "anchors": ["compiler/core/src/zserio/ast/ZserioAstChecker.java: visitRoot, visitTypeReference, visitSubtype, visitInstantiations, addUsedType", "compiler/core/src/zserio/ast/TypeReference.java: visitChildren"]}
{"id": "C98", "title": "Services and Pub/Sub are accepted only with types that can be sent", "statement": "A service is accepted exactly if all requests and responses are bytes or structures, choices and unions without parameters, and no two methods have names that differ at most in the case of the first letter. Pub/Sub is accepted under the same conditions on messages and only if all topics are constant strings.", "quantifier": "all services and Pub/Sub with any number of methods and messages", "why_tests_cant": "Tests have one schema for each mistake; that no other combination of types and names is accepted or refused is a statement about all of them.", "anchors": ["compiler/core/src/zserio/ast/ServiceMethod.java: check, checkUsedType", "compiler/core/src/zserio/ast/PubsubMessage.java: check", "compiler/core/src/zserio/ast/ServiceType.java: check", "compiler/core/src/zserio/ast/PubsubType.java: check", "compiler/core/src/zserio/ast/ScopeSymbolValidator.java: validate"]}
{"id": "C99", "title": "Keys and columns are found in SQL constraints", "statement": "The compiler finds the columns of PRIMARY KEY (...) and of UNIQUE (...) in the constraint of a table, in upper and lower case and with any white space, and nothing if there is no such clause. A column is taken for a primary key exactly if its constraint has the words PRIMARY KEY, and for one that cannot be NULL exactly if it has NOT NULL.", "quantifier": "all texts of constraints, all lists of columns", "why_tests_cant": "Tests have some texts; which texts a search with regular expressions finds, and that no spelling of a list of columns is cut wrongly, are statements about all texts.", "anchors": ["compiler/core/src/zserio/ast/SqlConstraint.java: evaluate, extractColumnsFromConstraint, hasConstraint"]}
