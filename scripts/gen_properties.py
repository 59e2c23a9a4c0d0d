import json
P=[]
def p(title, statement, quantifier, why, anchors):
    P.append(dict(id="C%02d"%(len(P)+1), title=title, statement=statement, quantifier=quantifier, why_tests_cant=why, anchors=anchors))
p("Round trip: decode inverts encode",
  "Whenever encode(types, args) returns bytes (of a length Python can represent), decode(types, those bytes) returns a tuple equal to the canonical form of args: sequences become tuples, bytes<M> values are right-padded to M bytes, addresses become lower-case 0x-prefixed hex strings, fixed-point numbers become numerically equal Decimals, everything else is unchanged. (Fixed-point arguments must be representable; see C08 for what happens otherwise.)",
  "every list of supported type strings (any nesting depth, any array dimensions), every list of Python argument values, every state of the registry caches",
  "the type language and the values are unbounded; nesting head/tail frames, empty arrays, mixes of static and dynamic members give infinitely many layouts",
  ["eth_abi/codec.py:ABIEncoder.encode","eth_abi/codec.py:ABIDecoder.decode","eth_abi/encoding.py","eth_abi/decoding.py"])
p("encode produces exactly the Solidity ABI layout",
  "For every value that legitimately denotes an ABI value of the given types, encode succeeds and the result is byte-for-byte the encoding defined by the Solidity contract ABI specification: static members in place, each dynamic member replaced by a 32-byte offset relative to the start of its enclosing tuple/array content, tails concatenated in order, dynamic arrays and byte strings prefixed by their length, numbers as 32-byte big-endian two's complement, bytes right-padded with zeros.",
  "every supported type list and every Python value denoting a value of it",
  "equality with a recursive specification over an infinite family of types cannot be sampled exhaustively",
  ["eth_abi/encoding.py:TupleEncoder.encode","eth_abi/encoding.py:BaseArrayEncoder.encode_elements","eth_abi/encoding.py:DynamicArrayEncoder.encode"])
p("Encoded length is a whole number of 32-byte words",
  "The length of every successful standard encoding is a multiple of 32, and for a static type list it depends only on the types, never on the values.",
  "every type list and arguments for which encode succeeds",
  "must hold for all values, including every byte-string length modulo 32",
  ["eth_abi/encoding.py","eth_abi/utils/numeric.py:ceil32"])
p("Encoding is injective",
  "If two argument lists have equal encodings for the same types then they have the same canonical form (so distinct ABI values never collide).",
  "every type list and every pair of encodable argument lists",
  "a statement about all pairs of inputs",
  ["eth_abi/encoding.py"])
p("is_encodable agrees with encode",
  "is_encodable(t, v) returns True exactly when encode([t],[v]) succeeds, and otherwise returns False. (The unrestricted claim is violated by the code; the exact class of exceptions is part of the result.)",
  "every type string and every Python value",
  "two different code paths (validation only vs. validation and encoding) must agree on an infinite set of inputs",
  ["eth_abi/codec.py:ABIEncoder.is_encodable","eth_abi/encoding.py:validate_value"])
p("Integers are accepted exactly in range",
  "For uint<M> (int<M>) a Python value is accepted by encode iff it is an int, not a bool, and lies in [0, 2^M-1] ([-2^(M-1), 2^(M-1)-1]); a non-int raises EncodingTypeError and an out-of-range int raises ValueOutOfBounds. The 32 bytes produced are its big-endian two's complement.",
  "every valid bit width M, every Python value",
  "boundaries for all widths and all of the unbounded integers",
  ["eth_abi/encoding.py:NumberEncoder.validate_value","eth_abi/encoding.py:UnsignedIntegerEncoder","eth_abi/encoding.py:SignedIntegerEncoder","eth_abi/utils/numeric.py"])
p("Fixed-point encoding of representable values is exact",
  "For (u)fixed<M>x<N>, every int, bool or finite Decimal v for which v*10^N is an integer within the M-bit (un)signed range is accepted, whatever the exponent or number of digits of v, and is encoded as exactly that integer; values outside the range raise ValueOutOfBounds, NaN/Infinity raise IllegalValue, floats and non-numbers raise EncodingTypeError; no decimal-arithmetic exception ever escapes.",
  "every valid M and N, every Python number",
  "decimal rounding at 999 digits, exponent limits and sign handling interact over an infinite set of values",
  ["eth_abi/encoding.py:BaseFixedEncoder","eth_abi/encoding.py:UnsignedFixedEncoder","eth_abi/encoding.py:SignedFixedEncoder","eth_abi/utils/numeric.py"])
p("Fixed-point values with excess precision are rejected",
  "A Decimal that needs more than N fractional digits is rejected with IllegalValue for (u)fixed<M>x<N> instead of being silently rounded. (Violated by the code for negative values and for positive residues below the decimal context's smallest subnormal; holds otherwise.)",
  "every valid M and N, every finite Decimal",
  "the sign of the decimal remainder and context underflow only matter on inputs a test author did not think of",
  ["eth_abi/encoding.py:BaseFixedEncoder.validate_value"])
p("Decoded values are always in range and re-encodable",
  "Whatever bytes are decoded, with strict on or off, each returned component is a canonical Python value of its ABI type: uint<M>/int<M> within range, booleans True/False, bytes<M> exactly M bytes, fixed-size arrays with exactly the declared length, tuples with the declared arity, 42-character lower-case addresses, Decimals that are exact multiples of 10^-N. Encoding the decoded tuple again with the same types succeeds and decodes to the same tuple.",
  "every type list, every byte string (well-formed or hostile), strict and non-strict mode",
  "hostile inputs are unbounded",
  ["eth_abi/decoding.py","eth_abi/codec.py:ABIDecoder.decode"])
p("Decoding of static types is canonical (non-malleable)",
  "If decode succeeds for a list of static types then re-encoding the result gives back exactly the leading bytes that were consumed; so no two different byte strings of the exact encoded length decode to the same value.",
  "every list of static types, every byte string",
  "must hold for all payloads, in particular all dirty padding/sign-extension patterns",
  ["eth_abi/decoding.py:FixedByteSizeDecoder","eth_abi/decoding.py:SignedIntegerDecoder.validate_padding_bytes"])
p("decode fails only with documented errors",
  "For supported types and any bytes whatsoever, decode terminates and either returns a tuple or raises an eth_abi DecodingError (or UnicodeDecodeError for string contents). (Violated: a byte-string length word of 2^63 or more raises OverflowError; the theorem gives the exact set of escaping exceptions and the types that can raise them.)",
  "every type list, every byte string, both strict modes",
  "totality over hostile input; loops are driven by 256-bit lengths read from the data",
  ["eth_abi/decoding.py","eth_abi/exceptions.py"])
p("Strict decoding ignores trailing data",
  "If decode(types, data) succeeds in strict mode, decode(types, data + extra) returns the same tuple for any extra bytes. (In non-strict mode this is false.)",
  "every type list, every data and every suffix",
  "quantifies over all suffixes; end-of-stream checks are spread over several decoders",
  ["eth_abi/decoding.py:TupleDecoder.validate_pointers","eth_abi/decoding.py:ByteStringDecoder.read_data_from_stream"])
p("strict=False only ever accepts more",
  "If decode(types, data) succeeds with strict=True then decode(types, data, strict=False) succeeds with the same result.",
  "every type list and every byte string",
  "relates two executions on every input",
  ["eth_abi/decoding.py:ByteStringDecoder.read_data_from_stream","eth_abi/registry.py:ABIRegistry._get_decoder_uncached"])
p("strict=False reaches every byte string in the payload",
  "With strict=False the padding of every bytes/string value in the payload is ignored. (Violated: the flag reaches only top-level members of the type list; byte strings nested in arrays or tuples are still decoded strictly.)",
  "every type containing bytes or string below the top level",
  "the flag must be observed to propagate through arbitrarily nested types",
  ["eth_abi/decoding.py:BaseArrayDecoder.from_type_str","eth_abi/decoding.py:TupleDecoder.from_type_str","eth_abi/codec.py:ABIDecoder.decode"])
p("Pointers always land inside the payload",
  "Whenever decode succeeds, the offset word of every dynamic member at the top level is smaller than the payload length and not smaller than 32 times the number of head slots counted by the decoder, and a payload whose offset word violates this raises InvalidPointer rather than reading elsewhere.",
  "every type list with dynamic members, every byte string",
  "must hold for every 256-bit offset",
  ["eth_abi/decoding.py:TupleDecoder.validate_pointers","eth_abi/decoding.py:BaseArrayDecoder.validate_pointers"])
p("Pointers never land inside the head section",
  "Whenever decode succeeds, no offset points into the head of its own tuple. (Violated when a static tuple or a static array of multi-word items precedes or follows a dynamic member, because such a member is counted as too few head words; holds for every tuple whose static members are single words or arrays of single words.)",
  "every tuple type, every byte string",
  "depends on how head sizes of arbitrary nested static types are counted",
  ["eth_abi/decoding.py:TupleDecoder.validate_pointers"])
p("Frame discipline of the decoding stream",
  "A successful decode of any value leaves the stream's frame stack and base offset exactly as they were, and leaves the cursor exactly past the value's head slot: 32 bytes for a dynamic member, the static size for a static one. Popping a frame restores the cursor and base offset that were current when it was pushed; popping with no frame raises IndexError.",
  "every decoder, stream contents, cursor position and frame stack; every push/pop history",
  "an invariant over all executions",
  ["eth_abi/decoding.py:ContextFramesBytesIO","eth_abi/decoding.py:HeadTailDecoder.decode"])
p("Decoded arrays are never longer than the data supports",
  "Every array in a successfully decoded tuple has at most len(data)/32 items, so a length word alone cannot cause unbounded allocation.",
  "every type, every payload, both strict modes",
  "length words are 256-bit and attacker controlled",
  ["eth_abi/decoding.py:DynamicArrayDecoder.decode"])
p("Decoded size is proportional to the payload",
  "The total number of items in the decoded tuple is at most proportional to the payload length. (Violated: several offsets may point to the same tail, so nested arrays expand multiplicatively.)",
  "every payload",
  "an adversarial construction, not a typical input",
  ["eth_abi/decoding.py:BaseArrayDecoder.validate_pointers"])
p("Type strings: parse then print is the identity",
  "For every string s accepted by parse, parse(s).to_type_str() == s.",
  "every string",
  "infinite language with recursion",
  ["eth_abi/grammar.py:NodeVisitor","eth_abi/grammar.py:BasicType.to_type_str","eth_abi/grammar.py:TupleType.to_type_str"])
p("Type strings: parse accepts exactly the grammar",
  "parse(s) succeeds with type T iff s is derivable, with structure T, from the EBNF in the source (greedy/ordered choice never changes the language); each accepted string has exactly one structure; otherwise it raises ValueError when s contains '()' and ParseError otherwise.",
  "every string",
  "soundness and completeness of a recursive parser against a declarative grammar",
  ["eth_abi/grammar.py:grammar","eth_abi/grammar.py:NodeVisitor._parse_uncached"])
p("normalize replaces exactly the alias words",
  "normalize is idempotent, and for every parseable type string the normalized string parses to the same structure in which exactly the basic types spelled int, uint, fixed, ufixed, function, byte (with no size) are replaced by int256, uint256, fixed128x18, ufixed128x18, bytes24, bytes1; every other part (array dimensions, other types) is unchanged.",
  "every string / every type string",
  "a regex with word boundaries against a recursive grammar",
  ["eth_abi/grammar.py:normalize","eth_abi/grammar.py:TYPE_ALIASES"])
p("Aliases are interchangeable with their canonical names",
  "encode, decode and is_encodable give the same outcome for a type string and for its normalized form. (Violated for the bare string 'byte', which is not registered although 'byte[]' and '(byte)' work.)",
  "every type string, value and payload",
  "the registry is consulted before normalization, so agreement must be shown for every spelling",
  ["eth_abi/registry.py:ABIRegistry._get_registration","eth_abi/base.py:parse_type_str","eth_abi/grammar.py:normalize"])
p("Supported types are exactly the valid ABI types",
  "is_encodable_type(s) is True iff s is, after alias expansion, a type of the Solidity ABI: uint/int<8..256 step 8>, address, bool, (u)fixed<8..256 step 8>x<1..80>, bytes<1..32>, bytes, string, arrays and tuples of these. (Violated: 'bool' is accepted with any numeric suffix, and bare 'byte' is not accepted; the theorem characterises the accepted set exactly.)",
  "every string",
  "the accepted language is infinite; rejection must hold for all other strings",
  ["eth_abi/codec.py:ABIEncoder.is_encodable_type","eth_abi/registry.py:has_encoder","eth_abi/grammar.py:BasicType.validate"])
p("An encoder exists iff a decoder exists, with the same layout class",
  "For the default registry, every type string has both an encoder and a decoder or neither, and the three notions of dynamic type (parsed type's is_dynamic, the encoder's, the decoder's) agree after normalization.",
  "every type string",
  "three independently written recursive computations must agree on all types",
  ["eth_abi/grammar.py:is_dynamic","eth_abi/encoding.py:is_dynamic","eth_abi/decoding.py:is_dynamic"])
p("Default registries are unambiguous",
  "No type string matches more than one registration of the default or packed registry: get_encoder, get_decoder and has_encoder never raise MultipleEntriesFound.",
  "every string",
  "pairwise disjointness of predicates over all strings",
  ["eth_abi/registry.py:registry","eth_abi/registry.py:PredicateMapping.find"])
p("Registry lookups are never stale",
  "After any sequence of register/unregister/lookup/encode/decode calls made one at a time, get_encoder and get_decoder return what a registry with the same registrations and empty caches would return (caching is unobservable) for class-based coders.",
  "every history of operations",
  "quantifies over all histories; staleness appears only after particular interleavings of queries and updates",
  ["eth_abi/registry.py:_clear_encoder_cache","eth_abi/registry.py:ABIRegistry.get_encoder"])
p("Registry lookups are never stale under threads",
  "The previous property also holds when registrations and lookups run in different threads. (Violated: a lookup between the cache clear and the update, or one that started before the clear and stores afterwards, leaves a stale coder in the cache.)",
  "every interleaving of two threads",
  "thread schedules",
  ["eth_abi/registry.py:_clear_encoder_cache"])
p("Registrations behave as a map with unique labels",
  "register then lookup finds the new coder iff no other registration matches; registering a duplicate matcher or duplicate label raises ValueError and changes nothing; unregister(label) removes exactly the registration added under that label; no other registration is affected; lookup is independent of registration order.",
  "every registry state reachable by any history, every matcher, label and type string",
  "a state machine with unbounded histories",
  ["eth_abi/registry.py:PredicateMapping","eth_abi/registry.py:BaseRegistry"])
p("Unregistering by matcher also frees its label",
  "After unregister_encoder(m) removes a registration, the label it had can be reused. (Violated when m is equal but not identical to the registered matcher, e.g. a fresh BaseEquals('uint'): the label stays occupied and unregistering by it raises a bare KeyError.)",
  "every registry state and matcher",
  "depends on object identity vs equality in a stateful history",
  ["eth_abi/registry.py:PredicateMapping.remove_by_equality","eth_abi/registry.py:PredicateMapping._label_for_predicate"])
p("register and unregister are all-or-nothing",
  "If register(...) or unregister(...) raises, the registry is unchanged. (Violated: the encoder side is updated before the decoder side is attempted.)",
  "every registry state and arguments",
  "needs states in which only one half fails",
  ["eth_abi/registry.py:ABIRegistry.register","eth_abi/registry.py:ABIRegistry.unregister"])
p("Registry copies are independent",
  "After copy(), no sequence of register/unregister/lookup operations on either registry changes which coder the other returns.",
  "every pair of histories on the copy and the original",
  "interleavings of two histories",
  ["eth_abi/registry.py:ABIRegistry.copy","eth_abi/registry.py:PredicateMapping.copy"])
p("The strict flag is per call",
  "The result of decode(types, data, strict=b) depends on b and not on the strict flags of earlier calls. (Holds for class-registered decoders; violated for decoder instances registered as documented for StringDecoder: a strict=False call leaves later strict=True calls lenient.)",
  "every history of decode calls",
  "history dependent; visible only through the lookup cache",
  ["eth_abi/registry.py:ABIRegistry._get_decoder_uncached","docs/registry.rst"])
p("Packed encoding is plain concatenation",
  "encode_packed returns the concatenation, in order, of the unpadded leaf encodings: uint<M>/int<M>/fixed in exactly M/8 bytes, bool in 1, address in 20, bytes<M> in M, bytes and string verbatim, arrays and tuples as their items with no offsets, lengths or padding; it accepts exactly the values the standard mode accepts.",
  "every supported type list and argument list",
  "infinite family of types",
  ["eth_abi/packed.py","eth_abi/encoding.py:PackedArrayEncoder"])
p("Packed encoding is injective for static types and not otherwise",
  "For a list of static types the packed length is fixed by the types and distinct canonical values have distinct packed encodings; with dynamic members collisions exist.",
  "every pair of argument lists of static types",
  "all pairs of inputs",
  ["eth_abi/packed.py"])
p("Addresses",
  "encode accepts for address exactly: 20-byte binaries, and 40-hex-digit strings with optional 0x that are all-lower, all-upper or all-digit, or carry a valid EIP-55 checksum; all spellings of one address encode identically, and decode returns its lower-case 0x form.",
  "every Python value; every 20-byte string",
  "mixed-case acceptance depends on a hash of the content",
  ["eth_abi/encoding.py:AddressEncoder","eth_abi/decoding.py:AddressDecoder"])
p("String contents survive exactly",
  "string values are encoded as their UTF-8 bytes and decoded back to the identical string, for every string without lone surrogates; byte sequences that are not well-formed UTF-8 (overlong, surrogates, above U+10FFFF, truncated) are rejected with UnicodeDecodeError.",
  "every Python str, every byte string",
  "all code points and all malformed sequences",
  ["eth_abi/encoding.py:TextStringEncoder","eth_abi/decoding.py:StringDecoder"])
p("encode fails only with EncodingError",
  "For supported types, any Python argument either encodes or raises a subclass of EncodingError. (Violated for strings with lone surrogates and for complex and Fraction numbers passed to fixed-point types; the theorem gives the exact set.)",
  "every type list, every Python value",
  "the argument domain is all Python values",
  ["eth_abi/encoding.py"])
p("Arity is enforced everywhere",
  "encode raises ValueOutOfBounds if the number of arguments differs from the number of types; a tuple value of the wrong arity or a fixed-size array value of the wrong length makes encode fail with an EncodingError at any nesting depth, never truncating or padding silently.",
  "every type list, argument list, nesting depth",
  "silent zip truncation would appear only for particular shapes",
  ["eth_abi/encoding.py:TupleEncoder.validate_value","eth_abi/encoding.py:SizedArrayEncoder.validate_value"])
p("Plain callables can be used inside compound types",
  "A type registered with plain encode/decode callables can be used in tuples and arrays. (Holds for tuples; violated for arrays: encoding or decoding an array of such a type raises AttributeError while is_encodable_type still answers True for T[].)",
  "every registered callable, every compound type mentioning it",
  "interaction of custom registrations with all compound types",
  ["eth_abi/encoding.py:BaseArrayEncoder.validate_value","eth_abi/decoding.py:BaseArrayDecoder.__init__","docs/registry.rst"])
p("Coder construction never fails for a valid type",
  "For every type string that validates, the coder constructors' own consistency checks (bit size multiple of 8, value fits data size, fractional places in 1..80) never fire, in the default and packed registries.",
  "every valid type string",
  "two independent validation layers over all sizes",
  ["eth_abi/encoding.py:FixedSizeEncoder.validate","eth_abi/decoding.py:FixedByteSizeDecoder.validate","eth_abi/decoding.py:BaseFixedDecoder.validate"])
p("Hypothesis strategies only generate encodable values",
  "Every value that get_abi_strategy(t) can generate, for a supported type t, is encodable as t, and encode succeeds on it; and it round-trips.",
  "every supported type string, every value in the strategy's range",
  "the strategy's range is infinite; sampling it is what the strategy itself does",
  ["eth_abi/tools/_strategies.py"])
p("Numeric helpers are exact",
  "ceil32(x) is the least multiple of 32 not below x; the fixed-point bounds are exactly the integer bounds divided by 10^N with no rounding for all M<=256, N<=80; scale_places(p)(x) = x*10^-p exactly whenever the result fits the context, and otherwise rounds it half to even or, when it is too large, raises Overflow.",
  "every integer / every valid size",
  "claims about all integers and decimal rounding",
  ["eth_abi/utils/numeric.py"])
p("Lookup errors are faithful",
  "Looking up an unregistered type raises NoEntriesFound if the string parses and otherwise the parse error; has_encoder/is_encodable_type is True iff get_encoder succeeds, re-raises MultipleEntriesFound, and is False for every other failure.",
  "every registry state and every string",
  "all strings and all reachable registries",
  ["eth_abi/registry.py:BaseRegistry._get_registration","eth_abi/registry.py:ABIRegistry.has_encoder"])
p("Booleans decode only from 0 and 1",
  "decode(['bool'], data) succeeds iff the first 32 bytes exist and are the big-endian word 0 or 1, giving False resp. True; every other word raises NonEmptyPaddingBytes.",
  "every byte string",
  "2^256 words",
  ["eth_abi/decoding.py:BooleanDecoder"])
p("decode accepts exactly the payloads that hold a value",
  "decode(types, data, strict) returns values iff data holds them: at each head offset the leaf words are exactly the canonical words, each dynamic member sits where its head word points (relative to its frame), lengths and items follow, and (strict) padding is zero; the returned tuple is that value and it is unique.",
  "every supported type list and every byte string",
  "an independent description of the accepted payloads, over all types and all payloads",
  ["eth_abi/codec.py:ABIDecoder.decode","eth_abi/decoding.py"])
p("Coders can be constructed exactly with consistent parameters",
  "A leaf coder class called with value_bit_size, data_byte_size (and frac_places) given, left out or None is constructed iff the resulting sizes are present, value_bit_size is a multiple of 8 and at most 8*data_byte_size, frac_places is in 1..80, and an address encoder has 160 bits; otherwise ValueError. A keyword the class does not have raises AttributeError. Container classes need their member coders, derive is_dynamic from them, and container decoders wrap dynamic members.",
  "every concrete coder class and all keyword values (integers, None, absent)",
  "unbounded integers in several dimensions",
  ["eth_abi/base.py:BaseCoder.__init__","eth_abi/encoding.py:FixedSizeEncoder.validate","eth_abi/encoding.py:BaseFixedEncoder.validate","eth_abi/encoding.py:AddressEncoder.validate","eth_abi/decoding.py:FixedByteSizeDecoder.validate","eth_abi/decoding.py:BaseFixedDecoder.validate","eth_abi/decoding.py:TupleDecoder.__init__","eth_abi/decoding.py:BaseArrayDecoder.__init__"])
p("Hand-built encoders are exact for every size",
  "An encoder instance built with any consistent value_bit_size b >= 8 and data_byte_size d encodes exactly the values in range, as the d-byte big-endian two's complement (bytes: right-padded, address: left-padded to d bytes), and rejects all others with ValueOutOfBounds resp. EncodingTypeError. Fixed-point encoders do so for exact numbers and b <= 256.",
  "every leaf encoder class, all consistent sizes, every Python value",
  "unbounded sizes and values",
  ["eth_abi/encoding.py:FixedSizeEncoder.encode","eth_abi/encoding.py:SignedIntegerEncoder.encode","eth_abi/encoding.py:SignedFixedEncoder.encode"])
p("Hand-built decoders are exact for every size",
  "A decoder instance built with any consistent sizes b, d reads d bytes: fewer bytes raise InsufficientDataBytes; bytes that are the d-byte representation of a value in range give that value and advance the stream by d; all others raise NonEmptyPaddingBytes. The decoder inverts the encoder of the same sizes.",
  "every leaf decoder class, all consistent sizes, every stream content and position",
  "unbounded sizes and all byte strings",
  ["eth_abi/decoding.py:SingleDecoder.decode","eth_abi/decoding.py:FixedByteSizeDecoder","eth_abi/decoding.py:SignedIntegerDecoder.validate_padding_bytes","eth_abi/decoding.py:SignedFixedDecoder.validate_padding_bytes"])
p("Malformed strings are handled as the error handler says",
  "StringDecoder(handle_string_errors=h) reads the data as for bytes and decodes it: well-formed UTF-8 gives the same text for every h; otherwise each malformed part (the longest beginning of a character, or one byte) is dropped (ignore), becomes U+FFFD (replace), \\\\xhh per byte (backslashreplace) or U+DC00+byte (surrogateescape, from which the bytes can be recovered); surrogatepass decodes exactly UTF-8 extended by surrogates; strict raises UnicodeDecodeError, xmlcharrefreplace and namereplace TypeError, an unknown handler LookupError.",
  "every byte string, every handler name, every registry state it is registered in",
  "all byte strings and all payloads",
  ["eth_abi/decoding.py:StringDecoder"])
p("The limit on converting integers to text changes only the exception",
  "CPython's default limit of 4300 digits (messages quote the rejected value; the parser converts numbers) leaves results unchanged: encode accepts the same arguments with the same bytes and decode is the same. Only when a value is rejected and an integer of more than 4300 digits is inside the arguments may the exception be ValueError in place of an EncodingError (is_encodable then raises it instead of returning False). A type name with such a number raises VisitationError; is_encodable_type is False for it.",
  "every registry state reached by public calls on standard types, all type lists and all argument values",
  "integers beyond 10^4300 at any depth",
  ["eth_abi/encoding.py:BaseEncoder.invalidate_value","eth_abi/utils/string.py:abbr","eth_abi/grammar.py:NodeVisitor.visit_digits"])
p("ABIType attributes agree with the type string",
  "For every type string: to_type_str gives it back; two parsed types are == iff their strings are; is_array and item_type look at the last dimension only, item_type equals what parsing the string without it gives and raises ValueError for non-arrays; is_dynamic is True iff a dimension is [] or a basic component is string or bytes; every component's node holds its own text. == is an equivalence also on hand-built objects.",
  "every type string; every ABIType object for ==",
  "all nestings of types",
  ["eth_abi/grammar.py:ABIType","eth_abi/grammar.py:TupleType","eth_abi/grammar.py:BasicType"])
p("validate points at the first bad component",
  "validate() on a parsed type returns iff each basic component has a size the ABI allows; otherwise it raises ABITypeError whose message names the leftmost offending component, its column, the whole type string and the right reason. On hand-built objects without node it raises AttributeError (or ValueError for a tuple sub of wrong length) instead.",
  "every type string; every hand-built object",
  "all nestings of types and all sizes",
  ["eth_abi/grammar.py:BasicType.validate","eth_abi/grammar.py:TupleType.validate","eth_abi/grammar.py:ABIType.invalidate"])
p("Fixed-size arrays and tuples of equal members are interchangeable",
  "Types that differ only in writing T[n] or (T,...,T) encode the same arguments to the same bytes, in both modes; in packed mode T[] does so too. A single T[n] fails with the same exception as (T,...,T) unless the length is wrong. Decoding gives the same value wherever both succeed; what decodes with arrays also decodes with tuples, and a single value of either form decodes alike.",
  "every supported type and every argument value and payload",
  "all nestings of types, all values",
  ["eth_abi/encoding.py:SizedArrayEncoder","eth_abi/encoding.py:TupleEncoder","eth_abi/decoding.py:SizedArrayDecoder","eth_abi/decoding.py:TupleDecoder"])
p("Argument lists, tuples and arrays nest as the ABI says",
  "Encoding a tuple as the only argument gives what encoding its members as arguments gives, behind the offset 32 iff it is dynamic (never when packed), with the same exceptions; T[] is offset, length and its items as arguments; static (or packed) argument lists concatenate. Decoding a tuple is decoding its members as arguments, from wherever the offset points, always strictly when nested.",
  "every supported type list, every argument value, every payload",
  "all nestings of types, all values",
  ["eth_abi/codec.py","eth_abi/encoding.py:TupleEncoder","eth_abi/encoding.py:DynamicArrayEncoder","eth_abi/decoding.py:TupleDecoder","eth_abi/decoding.py:HeadTailDecoder"])
p("Wider numeric types encode and decode the same",
  "Replacing uintM by a wider uint or int, intM by a wider int, and likewise fixed-point types with the same decimals, anywhere in the types: arguments that encode give the same bytes, payloads that decode give the same values. In the other direction a payload decodes at the narrower types iff the values are in their range. (Not so in packed mode, where the size shows.)",
  "every pair of such type lists, every argument value and payload",
  "all sizes, values and nestings",
  ["eth_abi/encoding.py:NumberEncoder","eth_abi/encoding.py:BaseFixedEncoder","eth_abi/decoding.py:FixedByteSizeDecoder"])
p("string is bytes holding UTF-8",
  "Encoding texts as string gives exactly what encoding their UTF-8 as bytes gives, in both modes, at any depth, exceptions included. A payload decodes at types with string iff it decodes with bytes in their place and all those are well-formed UTF-8, to the texts they encode.",
  "every supported type list, all arguments, all payloads",
  "all texts and nestings",
  ["eth_abi/encoding.py:TextStringEncoder","eth_abi/decoding.py:StringDecoder"])
p("encode_packed equals encode on types that fill their words",
  "For types built from 256-bit integers and fixed-point numbers, bytes32, fixed-size arrays and tuples, encode_packed and encode have the same result, exceptions included.",
  "every such type list and every argument value",
  "all nestings and values",
  ["eth_abi/encoding.py:PackedUnsignedIntegerEncoder","eth_abi/encoding.py:PackedArrayEncoder"])
p("Truncated payloads are detected",
  "If encode produced a payload from arguments without excess decimals (C08), decoding any proper prefix of it with strict=True raises InsufficientDataBytes or InvalidPointer. More generally, cutting bytes off the end of any payload that decodes strictly either leaves the result unchanged or raises one of these two.",
  "every supported type list, all arguments, every payload and every cut",
  "all truncation points of all encodings",
  ["eth_abi/decoding.py:ContextFramesBytesIO","eth_abi/decoding.py:FixedByteSizeDecoder.read_data_from_stream","eth_abi/decoding.py:ByteStringDecoder.decode","eth_abi/decoding.py:TupleDecoder.validate_pointers"])
p("Decoded values are polynomially bounded by the payload",
  "A decoded value has at most as many items as its types allow when no T[] has more items than the payload has words: a polynomial in the payload length whose degree is the nesting depth of T[] in the types. No byte string or text in it is longer than the payload (or the 42 characters of an address).",
  "every supported type list and every payload",
  "adversarial payloads with shared tails",
  ["eth_abi/decoding.py:BaseArrayDecoder.decode","eth_abi/decoding.py:DynamicArrayDecoder.decode","eth_abi/decoding.py:TupleDecoder.decode"])
p('is_big_endian chooses the side of the padding',
  'A coder instance built with is_big_endian given (any int or bool, by truthiness; None is refused) puts or expects the value bytes on the right of the slot when true and on the left when false. Unsigned integers are written in their shortest form, so with is_big_endian=False the decoder with the same arguments may read a different number; the signed integer encoders ignore the keyword.',
  'every integer, bool, address and bytesM class, all sizes, every is_big_endian, every value and stream content',
  'all sizes and values',
  ["eth_abi/encoding.py:FixedSizeEncoder.encode","eth_abi/encoding.py:SignedIntegerEncoder.encode","eth_abi/decoding.py:FixedByteSizeDecoder.split_data_and_padding"])
p("How often decoding reads from the payload",
  "The number of stream reads of a successful decode is a function of the types and the value alone: one per word, two per byte string, two per pointer, twice the reads of a static member of a tuple. Any payload, also one that is rejected, takes at most the reads of a value in which every T[] has as many items as the payload has words. There is no bound in the payload length alone: a word inside k nested tuples is read 2^(k+1) times.",
  "every supported type list, every payload, strict or not",
  "payloads and types chosen to waste time; cost is invisible to result-based tests",
  ["eth_abi/decoding.py:TupleDecoder.validate_pointers","eth_abi/decoding.py:TupleDecoder.decode","eth_abi/decoding.py:BaseArrayDecoder.validate_pointers","eth_abi/decoding.py:ByteStringDecoder.read_data_from_stream"])
p("from_type_str builds a coder exactly for the types of its class",
  "Called directly with any string, from_type_str of a leaf coder class returns a coder iff the string names a type of that class (for the two byte string classes also bytesN), and it is the coder of that type. Otherwise it raises ParseError or ValueError for the syntax, ValueError for another base name or array dimensions, ABITypeError for a size the ABI lacks, and TypeError for 'bytes' given to a bytesN class. Tuple and array classes ask the given registry for the normalized component or item names in order, and pass its exceptions on; the wrong shape is a ValueError before that.",
  "every coder class, every string, every registry",
  "all strings; direct use of the classes, as in custom registrations",
  ["eth_abi/base.py:parse_type_str","eth_abi/base.py:parse_tuple_type_str","eth_abi/encoding.py:from_type_str","eth_abi/decoding.py:from_type_str"])
p("The framed stream keeps its frames",
  "After any sequence of calls of read, seek, seek_in_frame, push_frame and pop_frame on a new ContextFramesBytesIO, exceptions included, the total offset is the sum of the offsets on the stack; pop_frame undoes push_frame whatever properly nested calls came in between; pop_frame on an empty stack raises IndexError and changes nothing. A HeadTailDecoder with any tail decoder reads a pointer, decodes at that offset in the current frame, and leaves the cursor behind the pointer; it raises InsufficientDataBytes for a cut-off pointer and OverflowError for one no stream can address.",
  "every buffer, every sequence of calls, every tail decoder",
  "all call sequences and pointers",
  ["eth_abi/decoding.py:ContextFramesBytesIO","eth_abi/decoding.py:HeadTailDecoder.decode"])
p("abbr never exceeds its limit",
  "abbr returns the text unchanged if it fits the limit, and otherwise its first limit-3 characters followed by three dots. It raises, a ValueError, iff the text does not fit and the limit is below 3; never with the default limit.",
  "every text and every limit",
  "all texts and limits",
  ["eth_abi/utils/string.py:abbr"])
p("A ParseError points at the right place",
  "The grammar of grammar.py, run by parsimonious and visited by NodeVisitor, gives a type for exactly the strings of the grammar. A ParseError is raised at a position before which the text can be completed to a type. If the string begins with a type, it is the end of the longest one. If not, the character there cannot follow what is before it, except that an array size that is not closed is reported where it begins, and a text that ends too early where its last part is left incomplete. The message quotes at most five characters from there and counts columns from one.",
  "every string",
  "all strings; error positions come out of parsimonious' bookkeeping",
  ["eth_abi/grammar.py:grammar","eth_abi/grammar.py:NodeVisitor","eth_abi/exceptions.py:ParseError"])
p("A matcher that raises",
  "A lookup calls the matchers in the order of registration, and the first exception ends it, whichever other matchers match. The exception comes out as it is, with two exceptions: a ValueError whose first argument contains 'No matching' gives way to the ParseError of a malformed type string, and a ValueError without a string as first argument to the exception of testing for that. has_encoder and is_encodable answer False. A lookup that succeeds made no matcher raise. Nothing stays behind: after unregistering the matcher every lookup answers as before. Registering does not call the matcher.",
  "every registry a program can build, every matcher, every type string",
  "all registries and matchers; a matcher written for one family of names is called on every type string",
  ["eth_abi/registry.py:PredicateMapping.find","eth_abi/registry.py:BaseRegistry._get_registration","eth_abi/registry.py:ABIRegistry.has_encoder"])
p("The length of an encoding",
  "The output of encode has one 32-byte word for every number, flag, address and bytesN, for every length of an array or byte string and for every pointer to a member of dynamic type, and the contents of byte strings rounded up to words, text counted in UTF-8 bytes; nothing else. The output of encode_packed has the bytes of each leaf in its own size and nothing else. This holds for every call that succeeds.",
  "every list of supported types and every argument that encode accepts",
  "all types and arguments, odd Decimals included",
  ["eth_abi/codec.py:ABIEncoder.encode","eth_abi/encoding.py:TupleEncoder.encode","eth_abi/encoding.py:BaseArrayEncoder.encode_elements","eth_abi/packed.py"])
p("Encodings of static types sort like the values",
  "Let two argument lists stand for ABI values of the same static types, and let no negative number of one stand against a non-negative one of the other. Then encode and encode_packed give byte strings that compare (bytewise, as Python's < does) like the argument values compare lexicographically. Negative integers are encoded above all others of their type. Neither sign differences nor dynamic types can be allowed in general.",
  "every list of static types, every pair of arguments",
  "all pairs of values; encodings are used as sorted database keys",
  ["eth_abi/encoding.py:UnsignedIntegerEncoder","eth_abi/encoding.py:SignedIntegerEncoder","eth_abi/encoding.py:BytesEncoder","eth_abi/utils/padding.py"])
p("A decoding error names a real defect",
  "When decode raises, the numbers and bytes in the message are those of a defect of the payload. 'Tried to read' n bytes: a word, length, pointer or strict byte string is cut off, with the number of bytes that are there. 'Padding bytes were not empty': the padding of a word or strict byte string that does not consist of the right byte. 'Boolean must be': the byte of a bool that is neither 0 nor 1. 'Invalid pointer ... at location': the place of a word that is a pointer into its own offset section or behind the payload. OverflowError: a length no Python object has. UnicodeDecodeError: contents that are no UTF-8. Conversely a payload with such a defect is never decoded, so decode raises iff there is one.",
  "every list of supported types, every payload, strict or not",
  "all payloads; error messages are what users debug with, and tests only match exception classes",
  ["eth_abi/decoding.py:TupleDecoder.validate_pointers","eth_abi/decoding.py:BaseArrayDecoder.validate_pointers","eth_abi/decoding.py:FixedByteSizeDecoder.read_data_from_stream","eth_abi/decoding.py:FixedByteSizeDecoder.validate_padding_bytes","eth_abi/decoding.py:BooleanDecoder.decoder_fn","eth_abi/decoding.py:ByteStringDecoder.read_data_from_stream"])
p("An encoding error names a real flaw",
  "When encode or encode_packed raises, the message is true of the arguments: it names the encoder class of the type, shows the argument or the part of it that is wrong, and says of it that it is of the wrong kind, not finite, outside the bounds shown, too precise by the residue shown, too long, or of the wrong number of items, with the numbers that are right for type and value. Conversely arguments with such a flaw are never encoded, so encode raises iff there is one. The flaw named is that of the first argument, and of the first item of an array, that is not encodable; lone surrogates in a string are named only if there is no other flaw.",
  "every list of supported types, every argument list of the length of a Python object or less, both codecs",
  "all arguments; error messages are what users debug with, and tests only match exception classes",
  ["eth_abi/encoding.py:BaseEncoder.invalidate_value","eth_abi/encoding.py:TupleEncoder.validate_value","eth_abi/encoding.py:NumberEncoder.validate_value","eth_abi/encoding.py:BaseFixedEncoder.validate_value","eth_abi/encoding.py:BytesEncoder.validate_value","eth_abi/encoding.py:BaseArrayEncoder.validate_value","eth_abi/encoding.py:SizedArrayEncoder.validate_value"])
p("Interrupted calls leave a usable registry",
  "A registry or codec call may be stopped between any two accesses to shared state, as by KeyboardInterrupt or MemoryError. Whatever completed and interrupted calls were made before, no lookup is stale. Interrupted lookups, encodings and decodings change no later answer. An interrupted change of registrations shows to all users of encoders completely or not at all, likewise for decoders, and to those of decoders only if to those of encoders. A labelled registration interrupted anywhere is taken back by unregistering its label and can then be made again; an interrupted removal is finished by unregistering the matcher and then the label. Repeating the interrupted call is not enough.",
  "every registry with any history of completed and interrupted calls, every call and every place to stop it",
  "all interruption points; tests cannot place an asynchronous exception between two statements",
  ["eth_abi/registry.py:PredicateMapping.add","eth_abi/registry.py:PredicateMapping.remove_by_equality","eth_abi/registry.py:PredicateMapping.remove_by_label","eth_abi/registry.py:_clear_encoder_cache","eth_abi/registry.py:_clear_decoder_cache"])
p("The messages of a registry are true and what they suggest helps",
  "When get_encoder or get_decoder raises, the message is true: 'No matching entries' names a type string within the one looked up that no matcher accepts; 'Multiple matching entries' names one that several accept, and lists exactly these matchers in order of registration; 'Cannot create C for T' names the class registered for T, its normal form where that differs, and what T lacks. Such defects of the type string itself are always named. The standard registries never report several matches, and a class that does not fit only for 'function' with a size. register and unregister object exactly when the matcher or label is taken or missing in the table they name; a message about the decoders means the encoder has been registered, any other that nothing has. What helps: registering the type string that nothing matches, removing all but one of the matchers listed, removing the matcher or the label that is taken.",
  "every registry with any history, every type string, matcher and label",
  "all registries; the texts of the messages give instructions to the user, and no test follows them",
  ["eth_abi/registry.py:PredicateMapping.add","eth_abi/registry.py:PredicateMapping.find","eth_abi/registry.py:PredicateMapping.remove_by_equality","eth_abi/registry.py:PredicateMapping.remove_by_label","eth_abi/registry.py:BaseRegistry._get_registration","eth_abi/base.py:parse_type_str","eth_abi/base.py:parse_tuple_type_str"])
p("The memo of parse hands out shared objects",
  "grammar.parse remembers the object it made for a string and gives the same one to every later caller (threads that parse a new string at the same time excepted), other objects for other strings, and forgets errors. As long as nobody assigns to an attribute of a parsed object, parsing a string gives its tree or its error whatever was called before, and predicates and from_type_str decorators say what they would say without the memo. Results for different strings share no part, so an assignment to a part of one changes nothing for another string; but it does change what every later parse, lookup and from_type_str sees of its own string. item_type makes one new object that shares the components of the old one.",
  "every sequence of parses, predicate and decorator calls, method calls, constructions and attribute assignments, every string",
  "all histories; the memo is process-wide and its objects are mutable, and no test assigns to them",
  ["eth_abi/grammar.py:NodeVisitor.__init__","eth_abi/grammar.py:NodeVisitor._parse_uncached","eth_abi/grammar.py:TupleType.item_type","eth_abi/grammar.py:BasicType.item_type","eth_abi/registry.py:BaseEquals.__call__","eth_abi/base.py:parse_type_str"])
p("Every byte of an encoding outside pointers matters",
  "A payload that has the pointers of an encoding and decodes to the encoded values begins with that encoding, byte for byte; for static types this holds of every payload. So changing any byte of an encoding that is not part of a pointer makes decode raise or return something else. The bytes that belong to pointers are 32 for each member of dynamic type. Pointers can be changed without effect (two equal members may share one place), and so can, without the strict flag, the padding of bytes and strings at top level.",
  "every list of supported types, every encodable argument list, every payload, every position and byte; strict, or no bytes or string at top level",
  "all single and multiple byte changes of all encodings; tests try a few malformed payloads",
  ["eth_abi/decoding.py:FixedByteSizeDecoder.validate_padding_bytes","eth_abi/decoding.py:ByteStringDecoder.read_data_from_stream","eth_abi/decoding.py:BooleanDecoder.decoder_fn","eth_abi/decoding.py:HeadTailDecoder.decode","eth_abi/decoding.py:ContextFramesBytesIO.push_frame"])
p("Registered coders work inside every compound type",
  "Any number of new type names can be registered with encoder and decoder objects or classes, at any time and with any lookups and calls in between. If the encoder and the decoder of each name agree on being dynamic, then tuples and arrays built of these names and of the standard types in any way are encodable, and are encoded by the head-tail scheme of the ABI around what the registered encoders write. If each decoder reads what its encoder writes where it stands, moves on by as much when static, and needs a word at least when static and a byte when dynamic, then decode returns for every such payload, whatever follows it, the values read. Coders that disagree on being dynamic do not round-trip even at top level.",
  "every list of registrations of fresh names, every type built of them, every value the registered encoders accept, every world with these registrations",
  "all user-defined coders that keep the contract; tests register one example coder and never nest it",
  ["eth_abi/registry.py:ABIRegistry.register","eth_abi/encoding.py:TupleEncoder.encode","eth_abi/encoding.py:BaseArrayEncoder.encode_elements","eth_abi/decoding.py:TupleDecoder.__init__","eth_abi/decoding.py:BaseArrayDecoder.__init__","eth_abi/decoding.py:HeadTailDecoder.decode"])
p("Registered strategies work inside every compound type",
  "Any number of new type names can be registered with hypothesis strategies. If each draws only values that the encoder registered for the name writes, then every tuple and array type built of these names and of the types that have a strategy already has a strategy, which draws only encodable values; if the registered decoders read what the registered encoders write, every such value is encoded and read back. Types in which none of the names occurs keep their strategies. Unregistering a name again restores the registry of strategies.",
  "every list of registrations of fresh names, every type built of them, every example drawn",
  "all user-defined strategies; tests draw from the standard types only",
  ["eth_abi/tools/_strategies.py:StrategyRegistry.register_strategy","eth_abi/tools/_strategies.py:StrategyRegistry.unregister_strategy","eth_abi/tools/_strategies.py:StrategyRegistry.get_strategy","eth_abi/tools/_strategies.py:get_array_strategy","eth_abi/tools/_strategies.py:get_tuple_strategy"])
p("The padding functions fill up and never cut",
  "zpad, zpad_right and fpad return the value with as many zero bytes before it, zero bytes behind it or 0xff bytes before it as are missing to the given length, and none if it is that long already; zpad32, zpad32_right and fpad32 do the same for 32 bytes. Padding twice is padding to the larger length.",
  "every byte string and every length, negative ones included",
  "all values and lengths",
  ["eth_abi/utils/padding.py:zpad","eth_abi/utils/padding.py:zpad_right","eth_abi/utils/padding.py:fpad"])
p("Matchers are dict keys: what assigning to a registered one does",
  "As long as no Equals or BaseEquals object is assigned to after it was registered, registration, lookup and removal go by the attributes of the matchers, whatever the hashes of these are. An assignment to an attribute of a registered matcher counts for every lookup that is not cached; cached lookups keep the old answer. Unregistering such a matcher by its label frees the label, and removes its entry, or the entry of another matcher that equals what it is now, or, if there is none such, may raise KeyError and leave the entry; the entry then stays whatever calls follow that do not name the object. A new matcher equal to what it is now is not refused, so that there are two equal ones.",
  "every sequence of registrations, removals, lookups and assignments, every hash function",
  "all histories and all hash functions; whether a changed key is found again in a dict depends on the hashes, which differ from process to process",
  ["eth_abi/registry.py:Predicate.__hash__","eth_abi/registry.py:Predicate.__eq__","eth_abi/registry.py:Predicate.__iter__","eth_abi/registry.py:PredicateMapping.add","eth_abi/registry.py:PredicateMapping.remove_by_label","eth_abi/registry.py:PredicateMapping.remove_by_equality"])
p("How deeply coders call each other",
  "The number of coders active at the same time is known from the types: decoding takes no more than a number that can be read off them, whatever the payload, and so does encoding whenever it succeeds; when it fails, the nesting of the arguments counts as well, since the message quotes a value. With fewer levels (Python's recursion limit) the calls return what they return without a limit or raise RuntimeError, never other bytes, another value or another exception. The numbers are exact for types without T[] and T[0]. No number of levels is enough for all types, and none makes encode and is_encodable reject every wrong value for uint properly.",
  "every number of levels, every list of supported types, every payload, every argument list",
  "all nesting depths; tests nest three levels and never reach the recursion limit",
  ["eth_abi/decoding.py:HeadTailDecoder.decode","eth_abi/decoding.py:TupleDecoder.decode","eth_abi/decoding.py:BaseArrayDecoder.validate_pointers","eth_abi/encoding.py:TupleEncoder.encode","eth_abi/encoding.py:BaseArrayEncoder.encode_elements","eth_abi/encoding.py:BaseEncoder.invalidate_value"])
p("The functions of the package use its two registries",
  "encode, decode, is_encodable and is_encodable_type of eth_abi give for every argument what the codec methods give on the standard registry, in whatever state lookups and calls have left it; encode_packed and is_encodable_packed give what the methods give on the packed registry. So every property of the codec methods on these registries is a property of the functions.",
  "all arguments, all states of the two registries without registrations by the user",
  "all arguments; a wrong registry behind one of the functions would show on some types only",
  ["eth_abi/abi.py","eth_abi/packed.py","eth_abi/registry.py:registry","eth_abi/registry.py:registry_packed"])
p("A basic type stands for a coder class with the sizes in its name",
  "Encoding one value of type uintM, intM, bool, address, ufixedMxN, fixedMxN or bytesM is the same as calling the object that the constructor of the class for that type gives for these sizes, and so is decoding one: same bytes, same value or same exception. The packed classes get as many data bytes as the value has, the others keep their 32.",
  "every supported basic type (byte strings and strings excepted), every value, every payload, strict or not, both codecs",
  "all sizes, values and payloads; the registered from_type_str methods choose the arguments of the constructors",
  ["eth_abi/encoding.py:UnsignedIntegerEncoder.from_type_str","eth_abi/encoding.py:PackedUnsignedIntegerEncoder.from_type_str","eth_abi/encoding.py:PackedSignedFixedEncoder.from_type_str","eth_abi/encoding.py:BytesEncoder.from_type_str","eth_abi/encoding.py:PackedBytesEncoder.from_type_str","eth_abi/decoding.py:UnsignedIntegerDecoder.from_type_str","eth_abi/decoding.py:BytesDecoder.from_type_str"])
p("The texts of the registry's messages say what they are about",
  "repr of a string is a literal that denotes that string and no other. Two Equals or BaseEquals matchers have the same repr exactly if they are equal. Two messages of registrations, removals, lookups and parse_type_str with the same text are about the same table, the same label or type string and equal matchers, and give the same reason, as long as the matchers in them are Equals and BaseEquals. Whether the message of a failed lookup contains the words 'No matching', which decides whether the type string is parsed, depends on the type string only, unless the repr of a matcher of the caller contains them. Types with the same repr are the same.",
  "all strings of code points, all matchers, labels, type strings and tables of registrations, whichever characters are printable",
  "all strings, quotes and escapes included; the texts are built from parts that are not escaped",
  ["eth_abi/registry.py:Predicate.__repr__","eth_abi/registry.py:Equals.__str__","eth_abi/registry.py:BaseEquals.__str__","eth_abi/registry.py:PredicateMapping.add","eth_abi/registry.py:PredicateMapping.find","eth_abi/registry.py:PredicateMapping.remove_by_equality","eth_abi/registry.py:PredicateMapping.remove_by_label","eth_abi/registry.py:BaseRegistry._get_registration","eth_abi/base.py:parse_type_str","eth_abi/grammar.py:ABIType.__repr__"])
p("The registry of strategies is a map with unique matchers and labels",
  "Starting from a new StrategyRegistry or from that of the package, every sequence of register_strategy and unregister_strategy calls has the outcomes and leaves the entries of a list of entries with unique matchers and labels, as long as a labelled entry is unregistered by its label or by the matcher object it was registered with (an equal copy leaves the label in use). get_strategy gives the registered strategy, or what the registered factory makes of the normalized type, of the one entry whose matcher accepts the type string, item and component types being looked up in the same registry; it raises NoEntriesFound or MultipleEntriesFound if no entry or several accept a type string that can be parsed.",
  "every sequence of calls, every entry list, every type string on which no matcher raises",
  "all histories and all nested types; the registry is built by the same base class as the ABI registry but has no caches",
  ["eth_abi/tools/_strategies.py:StrategyRegistry.register_strategy","eth_abi/tools/_strategies.py:StrategyRegistry.unregister_strategy","eth_abi/tools/_strategies.py:StrategyRegistry.get_strategy","eth_abi/tools/_strategies.py:get_array_strategy","eth_abi/tools/_strategies.py:get_tuple_strategy","eth_abi/registry.py:BaseRegistry._register","eth_abi/registry.py:BaseRegistry._unregister"])
p("A registered decoder object has one strict flag for all requests",
  "After a ByteStringDecoder or StringDecoder object has been registered under a new name, every decode of that name reads the data as for bytes, with the flag that the requests so far have left: a request with an argument (strict=True, strict=False, none) not used before for this name sets the flag, any other leaves it alone. So the first request for something gets it, equal requests all get what they ask for, and once both values have been asked for, the argument of decode has no effect. A class of the caller is given the type string as it was requested, aliases not replaced, and a dynamic decoder it makes gets the flag of the request.",
  "all sequences of get_decoder and decode calls for the name, all payloads, all error handlers, all reachable registries",
  "all histories of requests; the flag is an attribute of a shared object behind a cache with the argument in its key",
  ["eth_abi/registry.py:ABIRegistry._get_decoder_uncached","eth_abi/registry.py:ABIRegistry.get_decoder","eth_abi/decoding.py:ByteStringDecoder.decode","eth_abi/decoding.py:StringDecoder","eth_abi/decoding.py:BaseDecoder.strict","eth_abi/codec.py:ABIDecoder.decode"])
p("Exceptions of the caller's coders are passed on unchanged",
  "For a type string registered with a callable or an encoder object of the caller, encode([T], [v]) returns the bytes that the encoder returns (behind one pointer if the object is dynamic) or raises exactly what it raises. is_encodable(T, v) is True if the check accepts, False if it raises an EncodingError or one of its subclasses, and raises whatever else the check raises. The check is validate_value; if that raises AttributeError, which includes AttributeErrors from inside the method, the encoder is called instead. decode([T], data) calls a registered callable twice, at the same position, and raises what either call raises.",
  "all callables and encoder objects, all values and payloads, all reachable registries in which no other matcher accepts T, after any queries",
  "all supplied functions, whatever they raise; the codec catches two exception classes at different places",
  ["eth_abi/codec.py:ABIEncoder.is_encodable","eth_abi/codec.py:ABIEncoder.encode","eth_abi/codec.py:ABIDecoder.decode","eth_abi/encoding.py:TupleEncoder.validate_value","eth_abi/decoding.py:TupleDecoder.validate_pointers","eth_abi/decoding.py:TupleDecoder.decode"])
p("The text of a decoding error can be understood in one way only",
  "The messages of InvalidPointer, InsufficientDataBytes and NonEmptyPaddingBytes are one line of printable ASCII, whatever the payload. Two messages with the same text say the same: the kind of defect, the location, the numbers of bytes, the bytes shown (repr of bytes is a literal for these bytes and no others). What a message says is true of the payload. decode raises no other exception for a payload than these and the OverflowError and UnicodeDecodeError of CPython.",
  "all payloads and supported types, strict or not, all reachable states of the default registry",
  "all payloads; bytes of the payload go into the text through repr, which must escape them",
  ["eth_abi/decoding.py:TupleDecoder.validate_pointers","eth_abi/decoding.py:BaseArrayDecoder.validate_pointers","eth_abi/decoding.py:FixedByteSizeDecoder.read_data_from_stream","eth_abi/decoding.py:FixedByteSizeDecoder.validate_padding_bytes","eth_abi/decoding.py:BooleanDecoder.decoder_fn","eth_abi/decoding.py:SignedIntegerDecoder.validate_padding_bytes","eth_abi/decoding.py:ByteStringDecoder.read_data_from_stream"])
p("The texts of encoding errors tell which encoder refused a value and why",
  "The message of an exception of encode is 'Value `R` of type T cannot be encoded by E', followed by a colon and a reason unless a value of the wrong kind for a basic type or a special Decimal is refused. R is repr of the value, cut to 79 characters. Whatever R and T contain, the message and the class of the exception determine the name E of the encoder class and the reason with all its numbers (bits, bounds, counts, residue, places, size), and what they say is true of the arguments. Decimals in it are written in scientific notation with their own digits and exponent, so that no two are written alike. The message alone does not tell a value of the wrong kind from a special Decimal.",
  "all arguments for all supported types, both codecs, every repr of values and types",
  "all values, including those whose repr looks like a message; the texts are joined from parts that are not escaped",
  ["eth_abi/encoding.py:BaseEncoder.invalidate_value","eth_abi/utils/string.py:abbr","eth_abi/encoding.py:TupleEncoder.validate_value","eth_abi/encoding.py:NumberEncoder.validate_value","eth_abi/encoding.py:BaseFixedEncoder.validate_value","eth_abi/encoding.py:BytesEncoder.validate_value","eth_abi/encoding.py:BaseArrayEncoder.validate_value","eth_abi/encoding.py:SizedArrayEncoder.validate_value"])
p("The constructors of coders tell what is amiss with their keyword arguments",
  "A coder class called with keyword arguments raises if and only if something is amiss with them, or an object is used as a number or a coder and is none. AttributeError with the first unknown keyword comes before all else. Of several faults the one that comes first in a fixed order is told. A ValueError tells a reason that is true of the given values and the defaults of the class: a property that may not be None, a bit size that is no multiple of 8, a value wider than the data, fraction places outside 1 to 80, an address that does not have 160 bits. Properties that are not given have the value of the class, in particular decoders are strict. For a given class, the text of the message determines the fault with its keyword or size; but decoders do not show the bit size they refuse: the message contains '{self.value_bit_size}' literally.",
  "all coder classes and lists of keyword arguments, each keyword at most once",
  "any attribute of any class may be overridden; the texts differ between encoders and decoders",
  ["eth_abi/base.py:BaseCoder.__init__","eth_abi/encoding.py:FixedSizeEncoder.validate","eth_abi/encoding.py:NumberEncoder.validate","eth_abi/encoding.py:BaseFixedEncoder.validate","eth_abi/encoding.py:AddressEncoder.validate","eth_abi/encoding.py:TupleEncoder.validate","eth_abi/encoding.py:BaseArrayEncoder.validate","eth_abi/encoding.py:SizedArrayEncoder.validate","eth_abi/decoding.py:HeadTailDecoder.validate","eth_abi/decoding.py:TupleDecoder.validate","eth_abi/decoding.py:SingleDecoder.validate","eth_abi/decoding.py:BaseArrayDecoder.validate","eth_abi/decoding.py:FixedByteSizeDecoder.validate","eth_abi/decoding.py:BaseFixedDecoder.validate"])
with open('/verif/properties.jsonl','w') as f:
    for x in P: f.write(json.dumps(x)+"\n")
print(len(P))
