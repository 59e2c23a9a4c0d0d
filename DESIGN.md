# Design: a Rocq model of ethereum/eth-abi

## Approach

`rocq/theories` holds a shallow, executable Gallina model of `eth_abi`. Every definition cites the /repo file and
lines it stands for.

- Exceptions are values: `result A := Ok a | Err exc`, with one constructor per exception class that can occur.
- Python values are the inductive `pyval`: `str` is a list of code points (surrogates included), `bytes` a list of
  bytes, `int` is `Z`, `Decimal` is sign/coefficient/exponent or a special value. Values of other types are opaque.
- Loops driven by data (`range(array_size)` with a 256-bit size) iterate on `positive`: no fuel, exact.
- Recursion through the registry (`get_encoder` -> `from_type_str` -> `get_encoder`) uses fuel; `CacheProofs.v`
  proves that the fuel chosen by the entry points never runs out.
- State (registrations, the two caches, the `strict` flags of registered decoder instances) is passed explicitly, so
  "any history of calls" is a quantifier over lists of operations (`Histories.v`) or over schedules (`Threads.v`).

Specifications live in files of their own and do not use the model's helpers. They share with the model the Python
vocabulary (`Py.v`), keccak-256 (which `KeccakSpec.v` states separately), the table of word characters of `\w` and the constructors of syntax trees. The
registry specifications also share the matchers themselves (`pred_eqb`, `pred_is`, `pred_call`): what a matcher
says about a string is pinned down separately by the C24-C26 theorems, which speak about strings only.

Property theorems live in `Properties*.v`. These files hold nothing else: each theorem is closed by `exact` and
followed by `Print Assumptions`, and concrete cases (`Example`) show that its hypotheses can be met.
A suffix `_partial` marks a theorem that covers part of a property, `_refuted` a proof that the property as
stated is false, with a witness. `MANIFEST.json` (written by `scripts/gen_manifest.py`) maps properties to theorems.

## Files (theories/, in build order)

Model:

| file | stands for |
|---|---|
| Py | exceptions.py (class hierarchy), Python values, the result monad |
| Bytes, Padding | utils/padding.py, big-endian integers (eth_utils), slices, ceil32 |
| Utf8 | CPython's strict UTF-8 codec |
| Keccak, Address | eth_utils: keccak-256, is_address, to_canonical/normalized/checksum_address |
| Decimals | decimal.Decimal in the 999-digit context; utils/numeric.py |
| UnicodeWord, Grammar | grammar.py: parse, to_type_str, item_type, is_dynamic, validate, normalize |
| AbiTypes | grammar.py: ABIType instances as objects, with nodes, equality and the messages of validate |
| Encoding | encoding.py: every encoder class, validate_value and encode, construction checks |
| Decoding | decoding.py: ContextFramesBytesIO and every decoder class |
| Registry | registry.py: predicates, PredicateMapping, both caches, copy; base.py decorators; from_type_str |
| Codec | codec.py, abi.py, packed.py, utils/validation.py |
| Histories | sequences of public calls on one registry |
| Objects | registries as objects with references (sharing of dicts and caches after copy) |
| Threads | registry calls cut into atomic steps, and their interleavings |
| Strategies | tools/_strategies.py |
| Handlers | CPython's UTF-8 decoder with an error handler; `StringDecoder(handle_string_errors=...)` |
| Peg | grammar.py: the rules as data, parsimonious' matching and error position, NodeVisitor; exceptions.py: ParseError.__str__ |
| Limits | CPython's limit of 4300 digits for `int`/`str` conversion, where the code meets it: `abbr` in messages, `visit_digits` |
| Cost | decoding.py again, counting `stream.read` calls (C62_same: otherwise the same program); reads inside callables are not counted |
| Complaints | decoding.py again, keeping the numbers and bytes shown in the messages (C70_same: otherwise the same program) |
| ComplaintTexts | the texts of the messages of decoding.py, with repr of bytes |
| ObjectionTexts | the texts of the messages of encoding.py, with str of Decimals; repr of the value and its type are given |
| Faults | the exceptions of the constructors with their reasons and texts (base.py:119-137 and the `validate` methods of encoding.py and decoding.py); names that no class has are given |
| Objections | encoding.py again, keeping what goes into the messages (C71_same: otherwise the same program); class names without a leading "Packed", which the coder trees do not record |
| Interrupts | a registry or codec call stopped between two steps of Threads (KeyboardInterrupt, MemoryError, an exception thrown into the thread): the state it leaves behind |
| Notices | registry.py and the checks of base.py again, keeping what goes into the messages (C73_same_*: otherwise the same program); a matcher is shown as itself, not as its `repr` |
| Memo | grammar.py:46-47 and 110-135 `visitor.parse` with its memo, the objects it hands out as cells of a memory, what predicates, `from_type_str` decorators and methods read of them, `item_type`, constructors and attribute assignments |
| Matchers | registry.py: PredicateMapping with matchers as objects that can be assigned to, as keys of a dict that keeps the hash of each key (C79_steady: otherwise the same program) |
| Depth | encoding.py, decoding.py, codec.py: encode, is_encodable and decode with a number of levels that coders calling coders may take (C80: otherwise the same program) |
| Stream | decoding.py: ContextFramesBytesIO as an object, with the state left after an exception (C64_same_*: the methods of Decoding are these) |
| Texts | the texts of the messages of `Notices`, CPython's `repr` of strings (which characters from U+0080 on are printable is a parameter), `repr` of matchers and ABI types |
| Abbr | utils/string.py, given the text of `repr` |
| Construct | base.py: `BaseCoder.__init__` with any keywords; validate, encode and decode of instances of any size |

Tests of the model: `Vectors`, `VectorsExtra` run the tables of /repo/tests through the model by computation.
They are tests of fidelity, not proofs of properties.

Specification:

| file | content |
|---|---|
| Spec | ABI types `sty`, abstract values, Solidity layout `abi_enc`, packed layout, `denotes` (Python value ~ ABI value) |
| ReadSpec | "payload holds value v of type t at position p", as a relation |
| GrammarSpec, TypeSpec | the EBNF as a relation on strings; names of ABI types, directly on strings |
| RegistrySpec, RaisingSpec | a registry as a list of entries; legal uses; matchers that raise |
| CustomSpec | layout of values whose type mentions a user-registered name |
| NumericSpec, StrategySpec | exact values of Decimals; what the strategies are meant to cover |
| ConstructSpec | which sizes are consistent; where padding goes |
| InstanceSpec | the strict flag of a registered decoder object after a list of requests |
| SuppliedSpec | what encode, is_encodable and decode make of the exceptions of the caller's coders |
| StrategyUseSpec | the registry of strategies as a list of entries, and the strategy it should give for a type string |
| TextSpec | what a string literal denotes, which matchers show their attributes, when two messages say the same |
| FunctionSpec | the coder class and constructor arguments behind each basic type |
| AbiTypesSpec | components of a type string and their places; sizes the ABI allows |
| FromTypeSpec | the coder a class builds for a type; the exceptions of from_type_str |
| StreamSpec | nested calls, sum of the frame offsets |
| LimitsSpec | values and type names with too many digits |
| PegSpec | beginnings of types; where a text goes wrong |
| HandlersSpec | malformed parts of a byte string, after Unicode 3.9 |
| CostSpec | stream reads that a value takes, most reads of a payload |
| SizeSpec | item counts, nesting depth of T[], longest byte string |
| ComplaintSpec | what is wrong with a payload, for each message of decoding.py |
| ObjectionSpec | what is wrong with an argument, for each message of encoding.py |
| ObjectionTextSpec | scientific notation |
| FaultSpec | the properties of each class with their defaults, what can be amiss with keyword arguments, and the order in which it is looked for |
| NoticeSpec | what is wrong with a lookup, a registration or a removal, for each message of registry.py and base.py |
| MemoSpec | the tree an object of a memory shows, the parts of an object, which histories assign to what |
| MatchersSpec | programs that leave registered matchers as they are |
| DepthSpec | the levels a type takes, the nesting of a value, types whose values have all their parts |
| ExceptionSpec | which exception class derives from which |
| KeccakSpec | keccak-256 bit by bit, after FIPS 202 |
| CodersSpec | values of types built of names registered with coders: how they are laid out and read back |
| DrawnSpec | types built of names registered with strategies, and strategies that suit the coders of their names |
| AlterSpec | which bytes of an encoding belong to pointers, and payloads that differ from an encoding elsewhere |
| InterruptSpec | what an interrupted call may leave behind |
| LengthSpec | bytes an argument takes |
| OrderSpec | lexicographic order of bytes and of ABI values |
| LawsSpec | relations between types: arrays as tuples, wider numbers, string as bytes, full words |

Proofs: `Tac`, `*Proofs*`, `LawsReads`, `DecodeFacts*`, `EncodeApi`, `DecodeApi`, `RegistryLaws`; witnesses and samples in `*Cases`,
`Samples`, `TypeSamples`.

Theorems: `PropertiesEncode` (C02 C03 C05-C08 C34-C36 C38 C39), `PropertiesDecode` (C09-C19 C36 C37 C45 C46),
`PropertiesRoundTrip` (C01 C04), `PropertiesTypes` (C20-C26 C41 C44), `PropertiesRegistry` (C27-C33 C40),
`PropertiesNumeric` (C43), `PropertiesStrategies` (C42), `PropertiesConstruct` (C47-C49, C61),
`PropertiesStrings` (C50), `PropertiesLimits` (C51),
`PropertiesAbiTypes` (C52 C53), `PropertiesLaws` (C54-C58),
`PropertiesPayload` (C59 C60, part of C19), `PropertiesCost` (C62), `PropertiesParts` (C63-C65),
`PropertiesParse` (C66), `PropertiesRaising` (C67), `PropertiesLengths` (C68 C69),
`PropertiesErrors` (C70), `PropertiesObjections` (C71), `PropertiesInterrupts` (C72),
`PropertiesNotices` (C73), `PropertiesMemo` (C74),
`PropertiesAlter` (C75), `PropertiesCoders` (C76),
`PropertiesDrawn` (C77), `PropertiesPadding` (C78), `PropertiesMatchers` (C79), `PropertiesDepth` (C80), `PropertiesFunctions` (C81, C82), `PropertiesTexts` (C83),
`PropertiesStrategyRegistry` (C84), `PropertiesInstances` (C85),
`PropertiesSupplied` (C86), `PropertiesErrorTexts` (C87), `PropertiesRefusalTexts` (C88), `PropertiesFaults` (C89).

## How the proofs go

1. Every type string is parsed, normalised and matched by the predicates of the two standard registries; a case
   analysis over all strings shows which coder it gets (`LookupProofs`, `TypeProofs`): C20-C26, C41, C44.
2. Coder trees of valid ABI types are in bijection with `sty`. By induction on `sty`, encoders accept exactly the
   values that denote an ABI value, and produce `abi_enc` of it (`EncodeProofs`, `AcceptProofs`): C02, C03, C05-C08, C38.
3. Decoders with stream and frames refine frame-free readers `pd` (`DecodeProofs`), which compute exactly the relation
   of `ReadSpec` (`ReadProofs`): C46, and from it C09-C19.
4. Caches are unobservable along any history (`CacheProofs`, `HistoryProofs`, `HeapProofs`), so the theorems hold in
   every reachable state of the default registry, not just the first: C27, C33.
5. The two dictionaries of `PredicateMapping` refine a list of entries (`RegistryProofs`, `RegistryLaws`): C29-C31.
6. Interleavings of lookup steps commute with cache contents (`ThreadProofs`), and a single updating thread is not
   disturbed by lookups (`ThreadLaws`): C28. `ObjectProofs` shows that registry
   objects never share a dict: C32.

## What is modelled, file by file

- `base.py`: both decorators, as the checks they run before `from_type_str`, and `BaseCoder.__init__` with any keyword
  arguments (`Construct.v`). Keywords that replace a method or function attribute are only tested for being None.
- `codec.py`, `abi.py`, `packed.py`, `utils/validation.py`, `utils/padding.py`, `utils/numeric.py`: everything.
- `encoding.py`, `decoding.py`: every concrete class and every method except `__repr__`-like ones; arguments of any
  Python type of `pyval`.
- `grammar.py`: the language, the tree, printing, validation, normalisation. `AbiTypes.v` adds the node of each object
  (its place in the string, computed from the tree) and hand-built objects whose `sub` and `arrlist` are of the usual
  types. `Peg.v` is the grammar as data, with the matching of parsimonious 0.10 (the version setup.py asks for) and the
  visitor's methods one by one; C66 proves it equal to the parser of `Grammar.v`. parsimonious itself is transcribed from
  memory of its `expressions.py`, without packrat cache, which does not change results: a failure is recorded if
  it is not before the one recorded and its expression has a name, or nothing is recorded yet; and a quantifier does not try its member at the
  end of the text. `TokenMatcher` and lookahead, which the grammar does not use, are left out.
- `registry.py`: everything, including wrong argument types, labels, copies and caches.
- `exceptions.py`: the classes and their inheritance. Messages are not modelled, except for that of ParseError (`Peg.v`),
  those of `validate` (`AbiTypes.v`), the arguments of those of `decoding.py`, `encoding.py`, `registry.py` and `base.py`
  (`Complaints.v`, `Objections.v`, `Notices.v`) and the "No matching" test of `_get_registration`, and the texts
  of those of `registry.py`, `base.py` (`Texts.v`), `decoding.py` (`ComplaintTexts.v`) and `encoding.py` (`ObjectionTexts.v`), and of those of the constructors (`Faults.v`). That test looks at the type string only, although the reprs of
  matchers are in the text too; C83_test shows that these make no difference unless a matcher of the caller has the
  words in its repr (C83_test_refuted).
- `tools/_strategies.py`: every strategy, as the expression that builds it; `draw` gives the examples hypothesis may
  produce.
- `utils/string.py`: `abbr` on a given text (`Abbr.v`), and whether its `repr` raises (`Limits.v`). `__init__.py`, `constants.py`: not modelled (re-exports,
  unused constants).

### Simplifications

- List-like values are `list`, `tuple` and `PSeq`: any other `Sequence` class whose `len` (at most `sys.maxsize`) and
  iteration agree. Subclasses of `int`, `str`, `bytes` other than `bool` and `bytearray` are not modelled.
- Recursion limits and memory exhaustion are ignored, except for the state they leave in a registry (`Interrupts.v`, C72)
  and the levels of coders in `Depth.v` (C80), where one level stands for the frames of one coder or of the repr of one
  list, and parsing and looking up types takes none. CPython's digit limit is in `Limits.v` only, with its default of
  4300 digits; C51 says how the other theorems change. The `repr` of foreign objects is taken not to raise.
- A user-supplied predicate is a function of the string alone, which may raise; it does not call the registry back. Of its
  exception only the class and the outcome of the "No matching" test are kept. A user-supplied `from_type_str` does not consult the registry. A user-supplied encoder or decoder callable may do anything to its
  argument and return or raise anything.
- Only `Memo.v` has the memo of `grammar.parse`. The other models parse anew each time, which is the same as long as no
  program assigns to an attribute of a parsed ABIType (C74_faithful, C74_base_equals, C74_type_str; C74_pure_refuted).
  `parse` with a `pos` keyword and the depth limit of Python's recursion are not modelled there.
- Only `Matchers.v` has assignments to the attributes of matchers; there a dict finds a key for sure if the stored hash is
  that of the key asked for, and otherwise perhaps, if it is the same object. The attributes are strings, and booleans or
  None. The other models compare matchers by their attributes, which is the same as long as no program assigns to those of
  a registered matcher (C79_steady; C79_unregister_refuted).
- `Threads.v` treats each access to a dict or cache, and each item of a loop over a dict, as one step; a loop raises
  RuntimeError when the dict has changed its size. Finding a key in a dict is one step although `__hash__` and `__eq__`
  of a matcher are Python code, and so is decoding a payload with the decoders found. A loop over a dict that has its
  old size again goes on with the item at the next place, where CPython goes on with the next slot.
- Error handlers registered with `codecs.register_error` are not modelled; Python's own are.
- Warnings, `repr` (other than in `Texts.v`, `ComplaintTexts.v` and `ObjectionTexts.v`), hashing (other than in `Matchers.v`) and pickling are not modelled.

### Read by hand

CPython (`BytesIO`, `decimal`, `re`, `functools.cache`, UTF-8), eth_utils, parsimonious and hypothesis are not in /repo;
their behaviour is transcribed from knowledge of their sources and is part of the trusted base. For hypothesis this
is: `st.text` draws no surrogates, `st.decimals(places=0)` draws exponent 0, `st.integers`, `st.binary` and `st.lists` keep
to their bounds. The UTF-8 decoder with each error handler was compared with CPython's on 1.9 million byte strings.

## Trusted base

- The kernel of Coq 8.16.1, checked again by `coqchk`. No kernel check is switched off and no VM or native
  computation is needed by `coqchk` beyond what the kernel does itself.
- `Print Assumptions` answers "Closed under the global context" for every theorem in `Properties*.v`: no axioms, not
  even from the standard library.
- That the model says what the code does (the lists above), and that the specification files say what the properties
  in `properties.jsonl` mean.

## Mutation testing

`seeded/LOG.jsonl` records edits of the model made in a scratch copy, each imitating a realistic bug. After each edit the
whole development is rebuilt with `make -k`. The broken proofs are traced to the property theorems that depend on them.
If a property that the edit makes false has no broken theorem, the failing helper proofs are skipped and the build goes
on, until the theorem fails or is seen to survive. A surviving theorem is too weak and gets tightened; the log names it.
Edits that cannot be observed through the public API are logged as equivalent.
