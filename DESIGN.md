# Formal model of cantools in Coq: design

The model lives in `rocq/theories`, the property list in `properties.jsonl`, the mapping from
properties to theorems in `MANIFEST.json`, and the record of seeded-bug experiments in
`seeded/LOG.jsonl`.

Contents: 1 approach, 2 files, 3 property by property, 4 what is modelled and what is not,
5 trusted base, 6 seeded bugs.

## 1. Approach

* Every modelled Python function becomes a total Gallina function of the same shape, with a comment
  that cites the file and lines. Python exceptions are values (`Err e` of type `result A`),
  dictionaries are association lists in insertion order, `bytes` are lists of `Z` in `0..255`, Python
  `int` is `Z`, Python `float` is `SpecFloat.spec_float` at binary64 precision (the standard library's
  executable IEEE model, without axioms).
* Specifications are separate from the model. The documented bit position of a signal bit is defined
  in `LayoutSpec.v` from the prose and pictures of the `Signal` docstring. "Active signal" is an
  inductive predicate on the flat signal list, unrelated to the codec trees the code builds. The
  lines of a CAN log are given by printers (`LogSpec.v`), not by the regular expressions of the
  reader. The databases a DBC file can hold are described by `good` (`DbcSame.v`) field by field,
  without the writer or the loader.
* Files `Prop_*.v` hold the property theorems (`Theorem C..`). Beside them stand concrete cases that
  meet the hypotheses (`Example`, or `Examples.v` for the codec).
* When the code violates a property, a theorem `..._refuted` exhibits the concrete input, and the
  part of the property that does hold is proved with a precise side condition. Every restriction of
  a theorem that is not mere well-formedness has such a refutation beside it.

## 2. Files

| Files | Content |
|---|---|
| `Base`, `PyNum` | results, dictionaries, sorting; Python numbers and their arithmetic (int, float) |
| `Conversion`, `Signal`, `Bitstruct`, `Formats`, `Message` | conversion.py, signal.py, the bitstruct library, utils.py, message.py |
| `LayoutSpec`, `CodecSpec` | specification of the layout, of selection and of admissible values |
| `BitsLemmas` .. `Strict`, `Examples`, `Prop_Codec`, `Prop_Order` | the codec theory, C01-C15, C50, C51 |
| `FloatReal`, `ConvReal`, `Prop_Conv`, `Prop_Nearest` | conversions, C16-C20, C59 |
| `Container`, `Database`, `Did`, `J1939`, `Autosar` with `Prop_Container`, `Prop_Database`, `Prop_Diag`, `Prop_J1939`, `Prop_E2E`, `Prop_SecOC`, `Prop_Strict` | C21-C32, C62 |
| `Tester` with `Prop_Expect`, `Prop_Tester`, `Prop_Invert`, `Prop_Initial` | C33-C37, C53 |
| `CSource`, `CSegments`, `CProofs`, `CLevels`, `CNames` with `Prop_CSource`, `Prop_CNames` | the generated C code and its semantics, C38-C41, C54 |
| `CFloat` with `Prop_CFloat` | the generated C functions encode, decode, is_in_phys_range and init, C63, C64 |
| `DecodeErr` with `Prop_DecodeErr` | the exceptions of decoding, C65 |
| `DecodeCmd` with `Prop_DecodeCmd` | subparsers/decode.py and subparsers/\_\_utils\_\_.py: the decode command, C66 |
| `Monitor` with `Prop_Monitor` | subparsers/monitor.py as a state machine over frames, ticks and keys, C67 |
| `Cdd` with `Prop_Cdd` | diagnostics/formats/cdd.py and the lookups of diagnostics/database.py on element trees, C68 |
| `Arxml` with `Prop_Arxml`, `Prop_ArxmlNum` | arxml/system_loader.py: version, reference dictionaries, references and locations, C69; arxml/utils.py, C70 |
| `ArxmlLoad` | arxml/system_loader.py: the loader from an element tree to messages, nodes and buses |
| `ArxmlReach` with `Prop_ArxmlPdu`, `Prop_ArxmlMsg`, `Prop_ArxmlScale`, `Prop_ArxmlSelector`, `Prop_ArxmlLinks`, `Prop_ArxmlSafety` | where the locations of arxml/system_loader.py lead; the signals of its PDUs, C71; its messages, buses and nodes, C72; what its signals mean, C73; who sends and receives them, C74; how they are protected, C75 |
| `EcuExtract` with `Prop_EcuExtract` | arxml/ecu_extract_loader.py and the choice of the loader in arxml/__init__.py (names with quotation marks, errors and int() simplified, see the head of the file), C76 |
| `CNode` with `Prop_CNode` | c_source.py: which macros, structures, functions and helpers the header, the source and the fuzzer have, for all nodes or for one (texts of comments, licence and build file left out), C77 |
| `Alike`, `FileCodec` with `Prop_FileCodec` | the signal and message objects that the DBC, KCD and SYM loaders construct from what a file says (dbc.py, kcd.py, sym.py); coding does not depend on the order of the signals, C78 |
| `TreeDraw` with `Prop_TreeDraw` | dump/formatting.py signal_tree_string (without comments; textwrap for one word) and signal_choices_string, C79 |
| `ListCmd`, `ListRead`, `ListBlock` with `Prop_ListCmd` | the list command (subparsers/list.py) after loading, C80; `ListRead` has the reader and the specification |
| `DumpCmd`, `DumpText` with `Prop_DumpCmd` | the dump command (subparsers/dump/__init__.py) after loading, without comments, C81; `DumpText` has the lemmas about lines and white space |
| `Plot` with `Prop_Plot` | the selection, collection and drawing of signals by the plot command (Plotter.add_msg, Signals and Graph of subparsers/plot.py), C82 |
| `PlotRead` with `Prop_PlotRead` | how the plot command reads its input (_do_decode, _mo_unpack and TimestampParser of subparsers/plot.py), C83 |
| `PlotTimes` with `Prop_PlotTimes` | what --start and --stop mean for relative times (parse_user_input_relative_time and strptimedelta_in_seconds of subparsers/plot.py), C84 |
| `Similar` with `Prop_Similar` | the inexact comparison of databases (is_similar and _differences of can/database.py), C85 |
| `CFloat32`, `FloatReal32` with `Prop_CFloat32` | the generated encode, decode and is_in_phys_range functions with use_float, in binary32, C86; float members without it, C63 |
| `Regex`, `RegexLemmas`, `Logreader`, `LogSpec`, `LogProofs`, `LogPcan` with `Prop_Log`, `Prop_Sticky` | the log reader, C42, C43 |
| `Cache`, `Prune` with `Prop_Cache`, `Prop_Prune` | load functions, C44, C49, C52, C55 |
| `DecText`, `Dbc*` with `Prop_DbcNames`, `Prop_DbcText`, `Prop_Dbc` | dbc.py from database to characters and back, C45-C48, C56 |
| `Draw`, `DrawProofs`, `Prop_Draw` | drawing of a message layout, C60 |
| `SymToken`, `SymStmt`, `Sym`, `SymRows`, `SymProofs`, `SymMessages`, `SymFile`, `Prop_Sym` | SYM files: tokens, grammar, dumping and loading, C61 |
| `Xml`, `XmlProofs`, `Kcd`, `KcdProofs`, `Prop_Kcd` | XML documents; kcd.py from database to characters and back, C57, C58 |

## 3. Property by property

| Property | What is modelled | How it is proved |
|---|---|---|
| C01-C07 layout, padding, round trips, independence, range | `Bitstruct`, `Formats`, `Message` (codec trees, encode, decode) | induction on format items gives the bit at each position; induction on codec trees; all read off one bit-level characterisation of encode |
| C08, C09 strict check | `_check_signal`, `_check_mux`, `_check_signal_tree`, `refresh` | invariant: the bit list marks exactly the union of the checked signals; soundness and completeness by tree induction |
| C10-C12, C51 selection, gather, strict encode, signal tree | `Message` | codec tree against the inductive predicate `active` |
| C13, C14 truncated and excess data | `decode_data` | the bit characterisation depends only on present bytes |
| C15, C50 order | insertion sort by key as model of `sorted` | sorted permutations; counterexample for `sort_signals=None` |
| C16-C20, C59 conversions | `PyNum`, `Conversion` | integer arithmetic; Flocq error analysis for binary64; lists for value tables |
| C21-C23 containers | `Container` | induction on the list and on the remaining bytes |
| C24, C25 database | `Database` | induction on the history of additions |
| C26 bit numbers | `Signal` | div/mod arithmetic |
| C27 DID | `Did` | reuse of the formats theory |
| C28, C29 J1939 | `J1939` | arithmetic on bit fields |
| C30, C31 E2E | `Autosar`, CRC as bit-serial division | linearity of the CRC over xor, injectivity of the step function |
| C32 SecOC | `Autosar`, authenticator as a function argument | list surgery |
| C33-C37, C53 tester | `Tester` as a state machine over operations | invariants over histories; relations for the queue |
| C38-C41, C54 C generator | `CSource`: segments and the semantics of the emitted C statements with explicit widths | bit-level equality with the layout specification |
| C42, C43 log reader | `Regex`, `Logreader` | backtracking matcher run on printed lines, for all ten formats |
| C44, C55 load functions | `Cache` | refinement to the uncached function over histories of file writes and loads |
| C45-C47 DBC names, ids, texts | `DbcNames`, `DbcToken` | induction on name lists and strings |
| C48, C56 DBC round trip | `DbcStmt` (grammar and printer), `DbcDump`, `DbcLoad` | tokenizer run on printed pieces, grammar run on tokens, then tables statement by statement |
| C57, C58 KCD files | `Xml` (ElementTree writer and expat reader), `Kcd` | reader run on the written document by induction on the tree; then element by element |
| C60 layout drawing | `Draw` | character at each column of each signal's picture; union, chunks and separators by list lemmas |
| C61 SYM round trip | `Sym` | the written tokens are read back, the grammar reads the rows back, then one symbol, one group of messages and the three sections at a time |
| C62 strict containers | `Container` | per element: the check of the element is the strict encoder of its message |
| C63, C64 generated encode, decode, init | `CFloat`: the emitted expressions over SpecFloat doubles | error bounds of doubles as for C17; induction on the signals |
| C65 exceptions of decoding | `Message`, `Container`, `Database` | induction over the codec tree; doubles of moderate size never overflow a conversion |
| C66 decode command | `DecodeCmd` over `Logreader`, `Database`, `Message`, `Container` | C42, C65 and the decoding specification of C02, assembled line by line |
| C67 monitor | `Monitor` over `Database`, `Message`, `Container`, `DecodeCmd` | a history of reported parts as specification; invariant between the dictionaries and the history of every entry; a second, small machine gives the meaning of the keys; induction over the events |
| C68 CDD files | `Cdd` over `Xml`, `Did`, `Conversion` | a relation between element trees and descriptions as specification; the loader is shown to accept exactly the described trees; layout by the offsets of C26, coding by C27 |
| C69 ARXML references | `Arxml` over `Xml` | paths told by positions in the tree as specification; acceptance, resolution and locations each as an equivalence with it |
| C70 numbers in ARXML files | `Arxml` | a grammar of numerals and literals as specification, equivalence with the reader |
| C71 signals of PDUs in ARXML files | `ArxmlLoad` over `Arxml` | an inductive relation between PDUs and places of signals as specification, equivalence with the loaded list |
| C72 messages, buses and nodes of ARXML files | `ArxmlLoad` over `Arxml` | relations between triggerings and messages as specification, one to one with the loaded list; later passes keep what they speak of |
| C73 scaling, names, units, comments and initial values of ARXML signals | `ArxmlLoad` over `Arxml`, `Conversion` | an inductive meaning of computation methods as specification; tables as functions of their last entries |
| C74 senders, receivers and header byte order in ARXML system files | `ArxmlLoad` over `Arxml` | inductive paths of PDUs and participants as specification; additions as relations between lists of messages |
| C75 end-to-end protection and authentication in ARXML system files | `ArxmlLoad` over `Arxml` | ordered elements and preorder of packages as specification; the profiles as a fold of marks |
| C76 ECU extracts of AUTOSAR | `EcuExtract` over `Xml` | places as lists of indices with lexicographic order; the parameters as folds in which the last one wins |
| C77 header, source and fuzzer fit together | `CNode` over `CSource`, `CNames` | who sends and receives as predicates; C types as the least width; calls of helpers as an inductive predicate over the generated statements |
| C78 coding survives a file | `FileCodec` over `Dbc*`, `Kcd`, `Sym` and `Message` | `codes_alike`: the two messages accept the same dictionaries, give the same bytes and decode the same values |
| C79 drawing of the signal tree | `TreeDraw` over `Message` | a picture as rows with depths in which a bar stands where the branch goes on below; the tree of a message as an inductive predicate over its signals |
| C80 list command | `ListCmd` over `ArxmlLoad` and `TreeDraw` | a reader of the printed text (blocks, fields by key) that knows nothing of the printing functions; format(n, '') is a parameter |
| C81 dump command | `DumpCmd` over `Draw`, `TreeDraw`, `J1939` and `Did` | a reader of the printed text (blocks between lines of dashes, fields by key, indented drawings) that knows nothing of the printing functions; str.splitlines and rstrip for ASCII |
| C82 plot command | `Plot`: re.escape, str.replace and a matcher for the patterns that occur (characters, '.', '.*', '$' and alternatives); the log lines are given as decoded frames, the horizontal axis is any type with a test for breaks | names with wildcards as an inductive relation on texts; what is drawn for an argument from the arguments before it |
| C83 input of the plot command | `PlotRead`: the patterns in `Regex`, the loop over the lines as a fold with the format, the kind of time, the bounds and the line number as state; dates, seconds and their conversions are parameters | lines as records of their columns; the settings from the first frame and the fate of each line by itself, as inductive relations |
| C84 relative times | `PlotTimes`: the patterns as in the code, read as fields and characters and matched in `Regex`; exact seconds in Q | times as an inductive type with a text and a value; Python's text of a timedelta |
| C85 inexact comparison | `Similar`: objects on a heap, the traversal with the set of seen pairs and fuel | corresponding parts and differences as inductive relations without a set of seen pairs; the fuel that suffices is stated; floats by Flocq |
| C86 generated code with float | `CFloat32`: the expressions of `CFloat` evaluated in binary32 | real numbers; the error of decode, and encode as its inverse |
| C49, C52 pruning | `Prune` | prefix removal is injective; refutation for encoding |

## 4. What is modelled and what is not

Paths are below `/repo/src/cantools`.

Modelled function by function:

* `database/conversion.py`, `database/namedsignalvalue.py`, `database/can/signal.py`: all of it, except `__repr__`.
* `database/utils.py`: formats, encode and decode, sorting, bit numbers, pruning. Not: `type_sort_signals` docs, `start_bit` of CDD data beyond what C26 and C27 need.
* `database/can/message.py`: construction, `refresh`, strict checks, codec trees, `encode`, `decode`, `gather_signals`, `assert_signals_encodable`, containers. Not: comments by language, `__repr__`.
* `database/can/database.py`: additions, lookups, refresh, encode and decode, inexact comparison. Not: the `add_*_file` wrappers beyond `database/__init__.py` (they only call the loaders).
* `database/__init__.py`: `load_file`, `load_string`, `load`, `dump_file` encoding choice, cache.
* `database/can/formats/dbc.py`: tokenizer, grammar, `load_string`, `dump_string` with all statements. The sort functions for the dump are an argument of the model. Sets of strings have an unspecified iteration order, which is a parameter (`set_list`).
* `database/can/formats/kcd.py`: all of it. Loading fails in the model, where the code goes on with None, when a needed attribute or a referenced node is missing.
* `database/can/formats/sym.py`: the tokenizer and the grammar of version 6.0, loading, dumping. The set order is a parameter. Other simplifications are at the top of `Sym.v`. The round trip covers files that dump_string wrote; of other files only what loading does is modelled.
* `database/can/formats/arxml/*`: the system loader and the loader of ECU extracts, from an element tree. Not: warnings, and what the heads of `Arxml.v`, `ArxmlLoad.v` and `EcuExtract.v` list.
* `database/diagnostics/did.py`, `data.py`: encode and decode.
* `database/can/c_source.py`: pack and unpack functions, range checks, choice macros, snake case names, encode, decode, is_in_phys_range and init functions. Also which of them, of the structures, macros and helpers the header, the source and the fuzzer have for all nodes or one. With `use_float` only encode and decode of integer signals and is_in_phys_range. Not: intermediate values of bit fields, comments, the text of the fuzzer and its build file.
* `j1939.py`, `autosar/end_to_end.py`, `autosar/secoc.py`, `tester.py`, `logreader.py`.

Not modelled: the command line (`subparsers/*` except the decode command, its helpers, the list command and the dump command without comments after loading, the monitor without curses and python-can, and `dump/formatting.py` without comments) and, of the plot command, absolute times of --start and --stop, options, labels, colours, units and matplotlib.

Simplifications, each repeated in the comment of the definition:

* Text is a sequence of 8-bit characters; `str` methods such as `isdigit` and the regular expression classes `\w`, `\d`, `\s` are their ASCII parts.
* NaN has one bit pattern. Decoding a NaN and encoding it again is excluded in C05.
* Timestamps of log lines stay texts (C42); the conversion to `datetime` is not modelled.
* In the DBC model numbers in text are read by `num_of`/`read_num`; the float type is abstract with the laws `FloatLaws` (`DbcFit.v`): a finite float is read back from its own text, and its text is one number token. These laws are hypotheses of the theorems, not axioms, and an instance is given in `Prop_Dbc.v`.
* `sorted` is an insertion sort with the same key; stability is what Python guarantees.
* python-can tasks are records with a running flag and a frame; queue and thread timing appear as a relation that allows every arrival order of frames.
* C integers have the widths of `stdint.h`; `float` and `double` members are bit patterns moved by `memcpy`.
* The C expressions of `CFloat.v` are evaluated in IEEE doubles, one rounding per operation (FLT_EVAL_METHOD 0, no contraction); a conversion of a double to an integer type that does not hold it is undefined.
* The disk cache is a map from keys to pickled copies; pickling is trusted to be faithful.

## 5. Trusted base

* The Coq 8.16.1 kernel and `coqc`; `coqchk` is run by the gate.
* The correspondence of each Gallina definition with the cited source lines (read by hand; the code was not run).
* The semantics of the external libraries as modelled: `bitstruct` (`Bitstruct.v`, `Autosar.v`), `crccheck` (`crc8_autosar`, `crc16_autosar` from the published parameters), `re` (`Regex.v`, backtracking with greedy and lazy repetition), `textparser` (`DbcStmt.v`, `DbcGrammar.v`), `xml.etree.ElementTree` with expat (`Xml.v`; no comments, processing instructions, document types or namespace prefixes), `python-can`, `diskcache`, `os.path.splitext`.
* Axioms. `Print Assumptions` lists for the theorems below exactly the axioms given, all of the standard library (`Coq.Reals`, `Coq.Logic`); every other theorem of `MANIFEST.json` is "Closed under the global context".

<!-- axioms -->
* `C17_float_round_trip`: `ClassicalDedekindReals.sig_not_dec`, `ClassicalDedekindReals.sig_forall_dec`, `FunctionalExtensionality.functional_extensionality_dep`, `Classical_Prop.classic`
* `C17_scaled_value`: `ClassicalDedekindReals.sig_not_dec`, `ClassicalDedekindReals.sig_forall_dec`, `FunctionalExtensionality.functional_extensionality_dep`, `Classical_Prop.classic`
* `C17_large_raw_refuted`: `ClassicalDedekindReals.sig_forall_dec`, `FunctionalExtensionality.functional_extensionality_dep`
* `C20_scaling_inverts`: `ClassicalDedekindReals.sig_not_dec`, `ClassicalDedekindReals.sig_forall_dec`, `FunctionalExtensionality.functional_extensionality_dep`, `Classical_Prop.classic`
* `C59_identity`: `ClassicalDedekindReals.sig_forall_dec`, `FunctionalExtensionality.functional_extensionality_dep`
* `C59_integer`: `ClassicalDedekindReals.sig_not_dec`, `ClassicalDedekindReals.sig_forall_dec`, `FunctionalExtensionality.functional_extensionality_dep`, `Classical_Prop.classic`
* `C59_general`: `ClassicalDedekindReals.sig_not_dec`, `ClassicalDedekindReals.sig_forall_dec`, `FunctionalExtensionality.functional_extensionality_dep`, `Classical_Prop.classic`
* `C59_large_refuted`: `ClassicalDedekindReals.sig_forall_dec`, `FunctionalExtensionality.functional_extensionality_dep`
* `C63_round_trip`: `ClassicalDedekindReals.sig_not_dec`, `ClassicalDedekindReals.sig_forall_dec`, `FunctionalExtensionality.functional_extensionality_dep`, `Classical_Prop.classic`
* `C63_truncated`: `ClassicalDedekindReals.sig_not_dec`, `ClassicalDedekindReals.sig_forall_dec`, `FunctionalExtensionality.functional_extensionality_dep`, `Classical_Prop.classic`
* `C63_truncation_refuted`: `ClassicalDedekindReals.sig_forall_dec`, `FunctionalExtensionality.functional_extensionality_dep`
* `C63_decode`: `ClassicalDedekindReals.sig_not_dec`, `ClassicalDedekindReals.sig_forall_dec`, `FunctionalExtensionality.functional_extensionality_dep`, `Classical_Prop.classic`
* `C63_encode`: `ClassicalDedekindReals.sig_not_dec`, `ClassicalDedekindReals.sig_forall_dec`, `FunctionalExtensionality.functional_extensionality_dep`, `Classical_Prop.classic`
* `C63_in_phys_range`: `ClassicalDedekindReals.sig_not_dec`, `ClassicalDedekindReals.sig_forall_dec`, `FunctionalExtensionality.functional_extensionality_dep`, `Classical_Prop.classic`
* `C63_phys_range`: `ClassicalDedekindReals.sig_not_dec`, `ClassicalDedekindReals.sig_forall_dec`, `FunctionalExtensionality.functional_extensionality_dep`, `Classical_Prop.classic`
* `C63_double_signals`: `ClassicalDedekindReals.sig_not_dec`, `ClassicalDedekindReals.sig_forall_dec`, `FunctionalExtensionality.functional_extensionality_dep`, `Classical_Prop.classic`
* `C64_init_offset_free`: `ClassicalDedekindReals.sig_not_dec`, `ClassicalDedekindReals.sig_forall_dec`, `FunctionalExtensionality.functional_extensionality_dep`, `Classical_Prop.classic`
* `C65_message`: `ClassicalDedekindReals.sig_not_dec`, `ClassicalDedekindReals.sig_forall_dec`, `FunctionalExtensionality.functional_extensionality_dep`, `Classical_Prop.classic`
* `C65_container`: `ClassicalDedekindReals.sig_not_dec`, `ClassicalDedekindReals.sig_forall_dec`, `FunctionalExtensionality.functional_extensionality_dep`, `Classical_Prop.classic`
* `C65_database`: `ClassicalDedekindReals.sig_not_dec`, `ClassicalDedekindReals.sig_forall_dec`, `FunctionalExtensionality.functional_extensionality_dep`, `Classical_Prop.classic`
* `C66_lines`: `ClassicalDedekindReals.sig_not_dec`, `ClassicalDedekindReals.sig_forall_dec`, `FunctionalExtensionality.functional_extensionality_dep`, `Classical_Prop.classic`
* `C66_one_per_line`: `ClassicalDedekindReals.sig_not_dec`, `ClassicalDedekindReals.sig_forall_dec`, `FunctionalExtensionality.functional_extensionality_dep`, `Classical_Prop.classic`
* `C66_candump`: `ClassicalDedekindReals.sig_not_dec`, `ClassicalDedekindReals.sig_forall_dec`, `FunctionalExtensionality.functional_extensionality_dep`, `Classical_Prop.classic`
* `C67_good`: `ClassicalDedekindReals.sig_not_dec`, `ClassicalDedekindReals.sig_forall_dec`, `FunctionalExtensionality.functional_extensionality_dep`, `Classical_Prop.classic`
* `C73_scaling`: `ClassicalDedekindReals.sig_not_dec`, `ClassicalDedekindReals.sig_forall_dec`, `FunctionalExtensionality.functional_extensionality_dep`, `Classical_Prop.classic`
* `C73_decoded`: `ClassicalDedekindReals.sig_not_dec`, `ClassicalDedekindReals.sig_forall_dec`, `FunctionalExtensionality.functional_extensionality_dep`, `Classical_Prop.classic`
* `C73_pdu`: `ClassicalDedekindReals.sig_not_dec`, `ClassicalDedekindReals.sig_forall_dec`, `FunctionalExtensionality.functional_extensionality_dep`, `Classical_Prop.classic`
* `C73_selector`: `ClassicalDedekindReals.sig_not_dec`, `ClassicalDedekindReals.sig_forall_dec`, `FunctionalExtensionality.functional_extensionality_dep`, `Classical_Prop.classic`
* `C85_reflexive`: `ClassicalDedekindReals.sig_not_dec`, `ClassicalDedekindReals.sig_forall_dec`, `FunctionalExtensionality.functional_extensionality_dep`, `Classical_Prop.classic`
* `C86_round_trip`: `ClassicalDedekindReals.sig_not_dec`, `ClassicalDedekindReals.sig_forall_dec`, `FunctionalExtensionality.functional_extensionality_dep`, `Classical_Prop.classic`
* `C86_truncated`: `ClassicalDedekindReals.sig_not_dec`, `ClassicalDedekindReals.sig_forall_dec`, `FunctionalExtensionality.functional_extensionality_dep`, `Classical_Prop.classic`
* `C86_decode`: `ClassicalDedekindReals.sig_not_dec`, `ClassicalDedekindReals.sig_forall_dec`, `FunctionalExtensionality.functional_extensionality_dep`, `Classical_Prop.classic`
* `C86_exact`: `ClassicalDedekindReals.sig_not_dec`, `ClassicalDedekindReals.sig_forall_dec`, `FunctionalExtensionality.functional_extensionality_dep`, `Classical_Prop.classic`
* `C86_in_phys_range`: `ClassicalDedekindReals.sig_not_dec`, `ClassicalDedekindReals.sig_forall_dec`, `FunctionalExtensionality.functional_extensionality_dep`, `Classical_Prop.classic`
* `C86_limit_refuted`: `ClassicalDedekindReals.sig_forall_dec`, `FunctionalExtensionality.functional_extensionality_dep`
* `C63_float_members`: `ClassicalDedekindReals.sig_not_dec`, `ClassicalDedekindReals.sig_forall_dec`, `FunctionalExtensionality.functional_extensionality_dep`, `Classical_Prop.classic`
<!-- end axioms -->

## 6. Seeded bugs

`seeded/LOG.jsonl` has one line per experiment. In a scratch copy the model is edited as a realistic bug
would change the program and everything that depends on it is rebuilt. When a proof fails it is
cut off there and the build goes on, so that the log shows every proof that fails on its own (`broken_proofs`)
and every property theorem that is lost, because it fails or rests on a failed lemma (`failed`).
