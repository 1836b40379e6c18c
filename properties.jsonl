{"id": "C01", "title": "Encode places every signal bit at its documented position", "statement": "For a message accepted by the constructor (strict=True), bit k of the raw value of every signal selected by the multiplexer values appears in Message.encode()'s output exactly at the position the Signal documentation gives for that bit (little endian: DBC bit start+k; big endian: MSB at DBC bit start, each following bit one lower, wrapping from bit 0 of a byte to bit 7 of the next).", "quantifier": "every message layout (any number of signals, widths, start bits, byte orders, nesting of multiplexers), every assignment of raw values in range", "why_tests_cant": "the number of layouts and values is unbounded; tests sample a few DBC files", "anchors": ["src/cantools/database/can/message.py:encode,_encode,_create_codec", "src/cantools/database/utils.py:encode_data,create_encode_decode_formats"]}
{"id": "C02", "title": "Frame length and unused bits", "statement": "encode() returns exactly message.length bytes; every bit that belongs to no selected signal is 0 without padding, and equals the corresponding bit of unused_bit_pattern with padding=True; no selected signal's bit is touched by padding.", "quantifier": "every layout, value assignment and unused_bit_pattern", "why_tests_cant": "must hold for every bit position of every layout and every multiplexer branch", "anchors": ["src/cantools/database/can/message.py:encode,_encode", "src/cantools/database/utils.py:create_encode_decode_formats.padding_mask"]}
{"id": "C03", "title": "Decode reads every signal from its documented position", "statement": "decode() (scaling=False, decode_choices=False) of any byte string of the right length returns, for each signal selected by the multiplexer values contained in it, the number whose two's complement / unsigned binary digits are the payload bits at the documented positions; without multiplexers and float signals it never fails.", "quantifier": "every layout, every payload", "why_tests_cant": "2^(8*length) payloads per layout", "anchors": ["src/cantools/database/can/message.py:decode,_decode", "src/cantools/database/utils.py:decode_data,create_encode_decode_formats"]}
{"id": "C04", "title": "Raw round trip decode(encode(values))", "statement": "For a strictly checked message, decoding the encoded frame without scaling returns exactly the encoded raw values of all required signals (and nothing else).", "quantifier": "every layout, every in-range value assignment, with or without padding", "why_tests_cant": "all values, all layouts, all nesting depths", "anchors": ["src/cantools/database/can/message.py:encode,decode", "src/cantools/database/utils.py:encode_data,decode_data"]}
{"id": "C05", "title": "Payload round trip encode(decode(bytes))", "statement": "Re-encoding the unscaled decode result of a payload reproduces every bit that belongs to a selected signal; if the remaining bits are zero (or equal the padding pattern with padding=True) the payload is reproduced byte for byte.", "quantifier": "every layout, every payload for which decode succeeds", "why_tests_cant": "all payloads", "anchors": ["src/cantools/database/can/message.py:encode,decode"]}
{"id": "C06", "title": "Signals do not disturb one another", "statement": "Changing the value of one non-selector signal changes in the encoded frame only bits at that signal's documented positions and leaves the decoded values of all other signals unchanged.", "quantifier": "every layout, every pair of value assignments differing in one signal", "why_tests_cant": "quantifies over pairs of runs", "anchors": ["src/cantools/database/can/message.py:encode,decode", "src/cantools/database/utils.py:encode_data"]}
{"id": "C07", "title": "Out-of-range raw values are never silently truncated", "statement": "encode() succeeds only if every selected signal's raw value fits its width and signedness; otherwise an exception is raised, never a wrapped value written.", "quantifier": "every layout, all integers", "why_tests_cant": "unbounded integers", "anchors": ["src/cantools/database/utils.py:encode_data", "src/cantools/database/can/message.py:_encode"]}
{"id": "C08", "title": "Strict layout check is sound and complete", "statement": "The constructor with strict=True accepts a message iff every signal fits in the frame and no two signals that can be selected together share a bit.", "quantifier": "every layout, every multiplexer nesting", "why_tests_cant": "all combinations of multiplexer branches", "anchors": ["src/cantools/database/can/message.py:_check_signal,_check_mux,_check_signal_tree,refresh"]}
{"id": "C09", "title": "Constructor argument checks", "statement": "Message construction succeeds only for frame ids of at most 11 bits (standard) or 29 bits (extended) and signals of positive length; and start bits inside the frame.", "quantifier": "all integers", "why_tests_cant": "unbounded integers", "anchors": ["src/cantools/database/can/message.py:__init__,_check_signal_lengths,_check_signal"]}
{"id": "C10", "title": "Multiplexer selection", "statement": "encode()/decode() process exactly the signals that are active under the multiplexer values: a signal is active iff it has no multiplexer, or its multiplexer is active and the multiplexer's value is one of its ids. An id with no branch raises EncodeError/DecodeError.", "quantifier": "every multiplexing structure and value", "why_tests_cant": "arbitrary nesting and ids", "anchors": ["src/cantools/database/can/message.py:_create_codec,_encode,_decode,_get_mux_number"]}
{"id": "C11", "title": "gather_signals returns exactly the required signals", "statement": "gather_signals() on any superset dictionary returns exactly the active signals with their input values, and raises EncodeError iff an active signal is missing (or a selector is invalid).", "quantifier": "every message and dictionary", "why_tests_cant": "all dictionaries", "anchors": ["src/cantools/database/can/message.py:gather_signals"]}
{"id": "C12", "title": "Strict encoding refuses unknown, missing and out-of-range values", "statement": "encode(strict=True) succeeds only if the dictionary's keys are exactly the active signals and each numeric value without a value-table entry lies in [minimum, maximum] up to the documented tolerance; non-strict encoding of the same data gives the same bytes.", "quantifier": "every message and dictionary", "why_tests_cant": "all dictionaries and numbers", "anchors": ["src/cantools/database/can/message.py:assert_signals_encodable,_assert_signal_values_valid,encode"]}
{"id": "C13", "title": "Truncated decoding", "statement": "decode(allow_truncated=True) of the first n bytes of a frame returns exactly the selected signals that lie completely inside these n bytes, with the values full decoding gives them.", "quantifier": "every layout, payload and cut position", "why_tests_cant": "all cuts of all payloads", "anchors": ["src/cantools/database/utils.py:decode_data", "src/cantools/database/can/message.py:_decode"]}
{"id": "C14", "title": "Excess and wrong-size data", "statement": "With allow_excess=True decoding depends only on the first message.length bytes; with allow_excess=False longer data, and with allow_truncated=False shorter data, always raise DecodeError.", "quantifier": "every payload of every length", "why_tests_cant": "unbounded lengths", "anchors": ["src/cantools/database/utils.py:decode_data"]}
{"id": "C15", "title": "Signal list order is irrelevant", "statement": "With the default sort order, permuting the signal list passed to the constructor does not change encode() output or decode() results. With sort_signals=None the order must not matter either.", "quantifier": "every permutation of every signal list", "why_tests_cant": "factorially many orders", "anchors": ["src/cantools/database/can/message.py:__init__", "src/cantools/database/utils.py:sort_signals_by_start_bit,create_encode_decode_formats"]}
{"id": "C16", "title": "Integer linear conversion is exact", "statement": "For integer scale (non-zero) and offset, scaled_to_raw(raw_to_scaled(r)) = r for every integer r of any size; every integer physical value on the grid survives the opposite round trip.", "quantifier": "all integers", "why_tests_cant": "unbounded", "anchors": ["src/cantools/database/conversion.py:LinearIntegerConversion"]}
{"id": "C17", "title": "Float linear conversion round trip", "statement": "For non-integer scale/offset (binary64), scaled_to_raw(raw_to_scaled(r)) = r for integer raw values up to 32 bits under sane magnitude of offset/scale; it fails for raw values beyond 2^53.", "quantifier": "all scales, offsets and raw values within the bound", "why_tests_cant": "2^64 scales x 2^32 raws; IEEE rounding", "anchors": ["src/cantools/database/conversion.py:LinearConversion"]}
{"id": "C18", "title": "Value table (choices) round trip", "statement": "If the texts of a value table are distinct, each named value decodes from and encodes to its own raw value; numbers without entry use the numeric conversion. With duplicated texts the raw value is not preserved when text is used.", "quantifier": "all value tables", "why_tests_cant": "all tables", "anchors": ["src/cantools/database/conversion.py:NamedSignalConversion", "src/cantools/database/namedsignalvalue.py"]}
{"id": "C19", "title": "Conversion factory and setters", "statement": "Assigning scale, offset, choices or is_float of a signal is equivalent to constructing the conversion afresh with the new parameter, in any order and number of assignments.", "quantifier": "every sequence of assignments", "why_tests_cant": "histories of any length", "anchors": ["src/cantools/database/conversion.py:BaseConversion.factory", "src/cantools/database/can/signal.py:Signal.scale,offset,choices,is_float"]}
{"id": "C20", "title": "Scaled round trip of whole messages", "statement": "decode(encode(d)) = d for scaled values/choice names that are the physical image of in-range raw values, whenever each selected signal's conversion inverts (integer scaling, value tables with distinct texts).", "quantifier": "every layout, every value assignment", "why_tests_cant": "all layouts and values", "anchors": ["src/cantools/database/can/message.py:encode,decode", "src/cantools/database/conversion.py"]}
{"id": "C21", "title": "Container frames round trip", "statement": "Unpacking the encoding of a list of (header id, payload) pairs returns the same list of header ids and payloads.", "quantifier": "every list of contained messages and payloads up to 255 bytes", "why_tests_cant": "all lists", "anchors": ["src/cantools/database/can/message.py:_encode_container,unpack_container"]}
{"id": "C22", "title": "Container unpacking is total and lossless", "statement": "unpack_container() terminates on every byte string of at most message.length bytes, raises DecodeError only for a length field exceeding the frame (never with allow_truncated), and headers plus payloads of the result are a prefix of the input with at most 3 bytes left over.", "quantifier": "all byte strings", "why_tests_cant": "all inputs", "anchors": ["src/cantools/database/can/message.py:unpack_container,decode_container"]}
{"id": "C23", "title": "Container header byte order", "statement": "encode() of a container writes each header id in the configured header byte order, but unpack_container()/decode() always read it big endian: with header_byte_order='little_endian' every element comes back with its three id bytes swapped, so the expectation that such a container decodes what it encodes fails (refuted by a concrete container).", "quantifier": "all header ids", "why_tests_cant": "all ids; reading the code shows unpack always uses big endian", "anchors": ["src/cantools/database/can/message.py:_encode_container,unpack_container"]}
{"id": "C24", "title": "Database lookup", "statement": "After construction and any sequence of additions, lookup by name returns the last added message with this name, lookup by frame id the last added message of the requested kind (standard, or extended if the id exceeds 0x7FF or this is forced) whose id agrees under the mask, and KeyError if there is none; standard and extended messages never collide and no message is lost.", "quantifier": "every sequence of messages", "why_tests_cant": "histories", "anchors": ["src/cantools/database/can/database.py:_add_message,get_message_by_name,get_message_by_frame_id,refresh"]}
{"id": "C25", "title": "Frame id mask is honoured uniformly", "statement": "db.encode_message(id, ..)/decode_message(id, ..) behave as get_message_by_frame_id(id).encode/decode for every id without bits outside the frame id mask, in particular without a mask; for every id with a bit outside the mask they raise KeyError whatever the database contains, so the mask is not honoured (refuted by a concrete database).", "quantifier": "all ids and masks", "why_tests_cant": "all ids", "anchors": ["src/cantools/database/can/database.py:encode_message,decode_message,get_message_by_frame_id"]}
{"id": "C26", "title": "Bit number conversions", "statement": "sawtooth_to_network_bitnum is an involution and a bijection inside each byte; cdd_offset_to_dbc_start_bit yields a start bit whose field covers exactly bits offset..offset+length-1 for fields inside one byte, little endian fields, and byte-aligned larger big endian fields. Big endian fields that cross a byte boundary and start inside a byte lose their bit offset.", "quantifier": "all bit numbers, lengths", "why_tests_cant": "unbounded", "anchors": ["src/cantools/database/utils.py:sawtooth_to_network_bitnum,cdd_offset_to_dbc_start_bit,start_bit"]}
{"id": "C27", "title": "DID encode/decode round trip", "statement": "Did.encode returns exactly did.length bytes with every data item in its own bits, and Did.decode(Did.encode(v)) = v for raw values of non-overlapping datas listed in ascending bit order; for datas listed out of order the round trip fails.", "quantifier": "all DID layouts and values", "why_tests_cant": "all layouts", "anchors": ["src/cantools/database/diagnostics/did.py:Did.encode,decode,_codec"]}
{"id": "C28", "title": "J1939 frame id pack/unpack", "statement": "frame_id_unpack and frame_id_pack are mutually inverse on all 29-bit ids; out-of-range fields raise Error.", "quantifier": "all 2^29 ids, all field tuples", "why_tests_cant": "exhaustive", "anchors": ["src/cantools/j1939.py:frame_id_pack,frame_id_unpack"]}
{"id": "C29", "title": "J1939 PGN", "statement": "pgn_unpack/pgn_pack are inverse on valid PGNs; pgn_from_frame_id is independent of priority and source address, and of the destination for PDU1.", "quantifier": "all ids", "why_tests_cant": "exhaustive", "anchors": ["src/cantools/j1939.py:pgn_pack,pgn_unpack,pgn_from_frame_id"]}
{"id": "C30", "title": "E2E protection is accepted by its own check", "statement": "check_profile2/5(apply_profile2/5(p)) holds for every payload, and apply modifies only the CRC byte(s) (profile 2: byte 0; profile 5: bytes 0 and 1).", "quantifier": "all payloads, data ids", "why_tests_cant": "all payloads", "anchors": ["src/cantools/autosar/end_to_end.py"]}
{"id": "C31", "title": "E2E protection detects errors", "statement": "Profile 2: any change of one payload byte that leaves the sequence counter alone makes the check fail. Profile 5: any change of one byte, or of two neighbouring bytes that are both protected or both CRC bytes, makes the check fail. Changes of a CRC byte together with the neighbouring protected byte can go unnoticed.", "quantifier": "all payloads, all error patterns of the class", "why_tests_cant": "all payloads x errors", "anchors": ["src/cantools/autosar/end_to_end.py"]}
{"id": "C32", "title": "SecOC apply/verify", "statement": "verify_authenticator(apply_authenticator(p)) holds; apply changes only the freshness and authenticator bits; verification succeeds iff those bits equal the recomputed ones.", "quantifier": "all payloads, freshness values, authenticator functions", "why_tests_cant": "all authenticators", "anchors": ["src/cantools/autosar/secoc.py"]}
{"id": "C33", "title": "Tester never loses or reorders expected messages", "statement": "In every interleaving of receptions, expect() calls and flush_input(), every frame delivered to the tester is returned by at most one expect(), is still pending, or was dropped by an expect(discard_other_messages=True) or flush_input(); nothing is lost or duplicated otherwise and pending messages stay in reception order. A received data frame is queued, with its decoded values, exactly when the database message registered last for its id belongs to the tester and is enabled. (Refuted corners: an id also used by a message of another bus; a too short frame raises.)", "quantifier": "every interleaving of receptions, expects (with and without discarding, with and without timeout) and flushes; expected signals exist in the messages of that name", "why_tests_cant": "histories", "anchors": ["src/cantools/tester.py:Listener.on_message_received,Message.expect,_expect_input_list,_expect_input_queue,Tester.flush_input"]}
{"id": "C34", "title": "Tester expect filter", "statement": "expect(name, signals, ...) returns the oldest pending or arriving message with that name all of whose expected signals have the expected values; it returns None only on timeout, and it finds a pending match without waiting. (Refuted: an expected signal of another multiplexer branch raises KeyError and messages are lost.)", "quantifier": "all message sequences and filters over signals present in the messages of that name", "why_tests_cant": "histories", "anchors": ["src/cantools/tester.py:Message.expect,_filter_expected_message"]}
{"id": "C35", "title": "Tester periodic tasks", "statement": "After stop() no periodic task started by the tester is running. While running, every enabled periodic message not sent by the device under test is sent by exactly one task and that task sends the message's current frame; other messages have no task. (Refuted without the guard: start() while running or enable() of an enabled message leaks a task that survives stop(); enable() sends messages of the device under test.)", "quantifier": "every sequence of start/stop/enable/disable/send/update/item assignment without start while running and without enabling an already enabled message while running", "why_tests_cant": "histories", "anchors": ["src/cantools/tester.py:Tester.start,stop,enable,disable,Message.send_periodic_start,send_periodic_stop"]}
{"id": "C36", "title": "Tester data and CAN frame agree", "statement": "After every sequence of calls that did not raise, the frame of a message is the encoding of its current signal data, and send() transmits that frame; a successful update restores agreement after any history. (Refuted: after a raised update, after `del message[...]`, after `message |= ...` data and frame differ.)", "quantifier": "every sequence of update/send/item assignment/start/stop/enable/disable", "why_tests_cant": "crash points in histories", "anchors": ["src/cantools/tester.py:Message.update,_update_can_message,send"]}
{"id": "C37", "title": "invert_signal_tree", "statement": "The inverted signal tree lists for a signal exactly the multiplexer settings of the tree paths leading to it; for a message's tree a signal without branches is present in a frame iff the frame's multiplexer values agree with one of its listed settings, no setting names a multiplexer twice, and multiplexers with branches are not listed.", "quantifier": "all signal trees; all messages and all multiplexer values", "why_tests_cant": "all trees", "anchors": ["src/cantools/tester.py:invert_signal_tree"]}
{"id": "C38", "title": "Generated C pack agrees with encode", "statement": "If encode(data, scaling=False) returns a frame and the C struct holds the raw values of the selected signals, then the generated <message>_pack() writes the same bytes, returns the frame length, does not touch bytes behind the frame and has no undefined behaviour. More generally, for every struct it sets exactly the bits of the selected members and clears all other bits of the frame. A size below the frame length gives -EINVAL and writes nothing. (Signals up to 64 bits, floats of 32 or 64 bits, integer multiplexers with integer values, case labels representable; without these conditions refuted.)", "quantifier": "every strict message with such signals, every struct contents, destination buffer, size, host byte order, dictionary", "why_tests_cant": "all layouts, multiplexing trees, struct contents; undefined behaviour does not show in tests", "anchors": ["src/cantools/database/can/c_source.py:CodeGenSignal.segments,_format_pack_code_signal,_format_pack_code_level,_format_pack_code_mux,DEFINITION_PACK_FMT,PACK_HELPER_LEFT_SHIFT_FMT,PACK_HELPER_RIGHT_SHIFT_FMT"]}
{"id": "C39", "title": "Generated C unpack agrees with decode", "statement": "From every payload of sufficient length the generated <message>_unpack() stores in the members of all selected received signals, and of all selected multiplexers, exactly the raw value decode(scaling=False) returns (including sign extension and float copies), leaves every other member unchanged, returns 0 and has no undefined behaviour. Packing a struct with values in range and unpacking gives the values back. (Same conditions as C38, and distinct member names; an unknown multiplexer value is silently accepted by the C code.) Fewer bytes than the message length give -EINVAL and leave the struct alone. A structure member that is a bit field of the length of its signal keeps the unpacked value.", "quantifier": "every strict message with such signals, every payload, receiver set, initial struct contents, host byte order", "why_tests_cant": "all payloads, layouts and multiplexing trees", "anchors": ["src/cantools/database/can/c_source.py:_format_unpack_code_signal,_format_unpack_code_level,_format_unpack_code_mux,CodeGenSignal.segments,DEFINITION_UNPACK_FMT,UNPACK_HELPER_LEFT_SHIFT_FMT,UNPACK_HELPER_RIGHT_SHIFT_FMT,SIGN_EXTENSION_FMT"]}
{"id": "C40", "title": "Generated C range check", "statement": "For an integer signal with positive integral scale, integral offset and limits on the grid of physical values, <signal>_is_in_range(raw) is true iff the physical value lies within the given limits and, on a side without limit, the raw value is representable in the signal's bits. Negative scales, limits off the grid and negative upper limits of unsigned raw values are refuted.", "quantifier": "all such signals, all values of the member's C type", "why_tests_cant": "all values; negative scales", "anchors": ["src/cantools/database/can/c_source.py:_generate_is_in_range,CodeGenSignal.minimum_ctype_value,CodeGenSignal.minimum_can_raw_value"]}
{"id": "C41", "title": "Generated C choice names are unique", "statement": "The choice names used for the #defines of one signal are pairwise distinct, each value of the table gets exactly one, and the name starts with the converted choice text (it is that text if no other choice converts to it). Macro names of different signals may clash (refuted).", "quantifier": "all value tables", "why_tests_cant": "all tables", "anchors": ["src/cantools/database/can/c_source.py:CodeGenSignal.unique_choices,_format_choices"]}
{"id": "C42", "title": "Log reader parses what candump/PCAN print", "statement": "Every line printed by candump (plain, with seconds, with a calendar date, compact log) or PCAN-View (trace versions 1.0, 1.1, 1.2, 1.3, 2.0, 2.1) is detected as that format and parsed to the printed channel, frame id, extended flag, data and remote flag; error rows yield no frame; a file of candump lines yields its frames in order.", "quantifier": "all channels, ids, data, timestamps, white space between columns; all files of candump lines", "why_tests_cant": "ids, data and white space are unbounded, and detection depends on ten backtracking patterns tried in order", "anchors": ["src/cantools/logreader.py:Candump*Pattern,PCANTracePattern*,Parser.detect_pattern,Parser.parse,Parser.iterlines"]}
{"id": "C43", "title": "Log reader pattern stickiness", "statement": "The format is fixed by the first recognised line, as the first pattern in the order of preference that matches; lines before it yield no frame and every later line is read in that format only. keep_unknowns only adds lines without a frame, and line ends do not matter.", "quantifier": "all sequences of lines", "why_tests_cant": "histories", "anchors": ["src/cantools/logreader.py:Parser.parse,detect_pattern"]}
{"id": "C44", "title": "Load cache transparency", "statement": "load_file with a cache directory returns what load_file without cache returns, after every history of file modifications, loads with any arguments into any cache directories, evictions and cleared caches, provided that the modification time of a file tells its contents apart and sort_signals is None, 'default' or a function of the library. If modification times only increase, files may also change while a load runs: the result is that of an uncached load at the start or at the opening of the file. Refuted for sort functions of the caller (all share one entry; those that cannot be pickled raise), for contents changed under one modification time, and for a modification time that is restored after a change during a load. The cache directory is the argument if it is not empty, else the environment variable CANTOOLS_CACHE_DIR if it is not empty; there is no cache without the diskcache package.", "quantifier": "all histories, all file contents, all loaders of the file formats, all arguments", "why_tests_cant": "the statement ranges over unbounded histories of loads and modifications and all argument combinations", "anchors": ["src/cantools/database/__init__.py:load_file"]}
{"id": "C45", "title": "DBC long names are shortened uniquely", "statement": "When dump shortens names, the names written are pairwise distinct, a name of at most 32 characters that is listed is written unchanged when distinct, shortened names have at most 32 characters (up to 10000 names), only contain characters of the original, '_' and digits, and the mapping back restores the original names. The result does not depend on the order in which the names are listed. Replacing special characters can make two different names equal.", "quantifier": "all name lists", "why_tests_cant": "all lists", "anchors": ["src/cantools/database/can/formats/dbc.py:LongNamesConverter"]}
{"id": "C46", "title": "DBC multiplexer id ranges", "statement": "The SG_MUL_VAL_ ranges written for a signal denote exactly its multiplexer ids and reading them back restores the id set.", "quantifier": "all id lists", "why_tests_cant": "all lists", "anchors": ["src/cantools/database/can/formats/dbc.py:_create_mux_ranges,_load_signal_multiplexer_values"]}
{"id": "C47", "title": "DBC string escaping", "statement": "A comment written to a DBC file is read back unchanged, whatever text follows it in the file, unless it ends in a backslash. Texts that dump does not escape (units, choices, bus comments, attribute strings) are read back unchanged if they hold no quote and do not end in a backslash; otherwise they may not be.", "quantifier": "all strings", "why_tests_cant": "all strings", "anchors": ["src/cantools/database/can/formats/dbc.py:_dump_comments,_dump_choices,DbcParser.tokenize"]}
{"id": "C48", "title": "DBC message attributes survive dump and load", "statement": "Dumping a database to DBC and loading the text keeps the frame id with the extended flag, the senders, the send type, the protocol and the CAN FD flag of every message, its cycle time (0 is read as None), and the limits of its signals if at least one of the two is a number other than 0 (a missing one beside it is read as 0). Without that condition the limits are lost, and without the definitions and attributes that carry them the send type, protocol and frame format are lost or overridden by a stale attribute (refuted by concrete databases).", "quantifier": "all databases a DBC file can hold (predicate good), both values of shorten_long_names, every iteration order of Python sets, every number text that obeys the stated float laws", "why_tests_cant": "all values", "anchors": ["src/cantools/database/can/formats/dbc.py:get_dbc_frame_id,_dump_messages,_dump_senders,_dump_attributes,_load_messages,_load_signals"]}
{"id": "C49", "title": "Pruning choices keeps them distinguishable", "statement": "prune_choices leaves raw values, their order and distinctness of names; with two or more choices it removes from every name the longest common prefix that ends in an underscore and leaves identifiers (refuted for a lone underscore); a single choice keeps the longest digit-free end that follows an underscore; decoding then gives the pruned name of the same raw value. Refuted: pruning is not idempotent.", "quantifier": "all value tables, all ASCII names", "why_tests_cant": "all strings and table sizes", "anchors": ["src/cantools/database/utils.py:prune_signal_choices"]}
{"id": "C50", "title": "Sorting functions are stable permutations", "statement": "sort_signals_by_start_bit, _by_start_bit_reversed, _by_name and _by_start_bit_and_mux return the stable sort of their input by the documented order, and nothing else is one; for the last one unmultiplexed signals come first and the others are grouped by their first multiplexer id. Sorting twice gives the same result, except for the reversed sort.", "quantifier": "all signal lists, with equal keys and repeated signals", "why_tests_cant": "Tests sort a handful of signals; stability and the order of the three successive sorts show only with equal keys.", "anchors": ["src/cantools/database/utils.py: sort_signals_by_start_bit, sort_signals_by_start_bit_reversed, sort_signals_by_name, sort_signals_by_start_bit_and_mux"]}
{"id": "C51", "title": "Signal tree mirrors the multiplexing structure", "statement": "message.signal_tree lists at each node exactly the signals active under the multiplexer values on the path to it.", "quantifier": "all multiplexing structures", "why_tests_cant": "all nestings", "anchors": ["src/cantools/database/can/message.py:_create_signal_tree,_create_codec"]}
{"id": "C54", "title": "Generated C identifiers", "statement": "The names the generator derives from signal and message names consist of a-z, 0-9 and _ only and are empty only for empty names. They may start with a digit or be a C keyword (refuted as identifiers).", "quantifier": "all ASCII names", "why_tests_cant": "all names", "anchors": ["src/cantools/database/can/c_source.py:camel_to_snake_case,_canonical"]}
{"id": "C52", "title": "Names of a pruned database can be encoded", "statement": "After loading with prune_choices=True the names that decoding returns can be used for encoding and give the raw value they were decoded from. Refuted: every pruned name that was not a name before raises KeyError, and a pruned name equal to another choice's former name is encoded as that other choice.", "quantifier": "all value tables and conversions", "why_tests_cant": "the tests only look at the choices of pruned databases, the claim is about all tables", "anchors": ["src/cantools/database/utils.py:prune_signal_choices", "src/cantools/database/conversion.py:NamedSignalConversion"]}
{"id": "C55", "title": "File format and encoding selection", "statement": "load_file without format takes the lower case extension of the last path component, without encoding cp1252 for dbc and sym and utf-8 otherwise. load_string without format returns the result of the first of arxml, dbc, kcd, sym, cdd that loads the text, and raises UnsupportedDatabaseFormatError with the five errors exactly if all fail; with a format only that one is tried and an unknown one is a ValueError.", "quantifier": "all file names, texts and loaders of the formats", "why_tests_cant": "all file names and all outcomes of the five parsers", "anchors": ["src/cantools/database/__init__.py:_resolve_database_format_and_encoding,load_string"]}
{"id": "C56", "title": "A database is read back from the DBC file written for it", "statement": "For every database that satisfies an explicit list of conditions, dump_string succeeds, load_string reads the result without error, and the database that is read equals the written one: version, nodes, bus, messages with their signals (as a set), signal groups, attributes, definitions, environment variables, value tables and relation attributes; names longer than 32 characters are shortened to distinct names in the file and read back in full. Each condition that looks removable is shown to be needed by a concrete database that is refused or changed: 16 bit floats, keywords as names, the message VECTOR__INDEPENDENT_SIG_MSG, bus names without DBName, unknown frame formats without a default, multiplexers with long names, groups of missing signals.", "quantifier": "all databases, both values of shorten_long_names, every iteration order of Python sets, every float arithmetic that obeys the stated laws", "why_tests_cant": "the tests compare a few dozen files; the claim covers every database and all combinations of names, attributes and multiplexing", "anchors": ["src/cantools/database/can/formats/dbc.py:dump_string,load_string,make_names_unique,_load_messages,_load_attributes", "src/cantools/database/can/formats/dbc.py:LongNamesConverter"]}
{"id": "C53", "title": "Initial values of tester messages", "statement": "When a Tester is created, every message starts with one value for each of its signals: the signal's initial value if it has a true one; otherwise, for a signal that is no multiplexer, 0 if the limits allow it and else the minimum, which the limits allow; otherwise, for a multiplexer that other signals depend on, an id that selects a branch. The values select a consistent set of signals, so that gathering them for encoding does not fail.", "quantifier": "all messages accepted strictly, with any multiplexing structure, limits and initial values", "why_tests_cant": "The id of a multiplexer is chosen by merging the settings of all signals of the inverted signal tree; tests only look at a few databases with one or two multiplexers and with limits that contain 0.", "anchors": ["src/cantools/tester.py: Message._prepare_initial_signal_values, Message.__init__, invert_signal_tree"]}
{"id": "C57", "title": "KCD round trip", "statement": "A database that is dumped to KCD format and loaded again has the same version (None becomes the empty text), the same node names in the same order, and the same messages in the same order. Of each message the id, frame format, name, length, cycle time and senders are the same, and its signals are a permutation of those dumped, each with its name, position, length, byte order, sign, scale, offset, float flag, value table, limits, unit, receivers, multiplexer flag, multiplexer id and multiplexer signal. Comments are kept up to line ends, which become line feeds, and an empty comment is lost. With the default sort order the signals of a loaded message are ordered by start bit. Not kept, each shown by an example: nested multiplexing, a second multiplexer id, multiplexed signals without their multiplexer, the buses, CAN FD, send types, initial values, the sign of floats.", "quantifier": "all databases whose node names differ, whose multiplexed signals have one id and a multiplexer of the message that is not itself multiplexed, whose senders and receivers are nodes, and whose texts are made of characters XML allows; all sort functions for dumping and loading", "why_tests_cant": "Tests dump and load a few files whose texts need no escaping; the round trip must hold for every text, including markup characters, quotes and line breaks in attributes and comments, and every grouping of multiplexed signals.", "anchors": ["src/cantools/database/can/formats/kcd.py: dump_string, load_string, _dump_message, _dump_signal, _dump_mux_groups, _indent_xml, _load_message_element, _load_multiplex_element, _load_signal_element"]}
{"id": "C58", "title": "Computed length of KCD messages", "statement": "A message that is loaded from a KCD file without a length, or with length 'auto', gets the smallest number of bytes that holds all its signals (0 without signals), provided that no signal starts before the frame.", "quantifier": "all message elements, all signals, positions, lengths and byte orders, all sort functions", "why_tests_cant": "The length is computed from a bit number that depends on the byte order; tests have a few messages, and a wrong bit number shows only for signals at certain bit positions.", "anchors": ["src/cantools/database/can/formats/kcd.py: _load_message_element, load_string", "src/cantools/database/utils.py: start_bit"]}
{"id": "C59", "title": "Encoding rounds to the nearest raw value", "statement": "A physical number is converted to the nearest raw value, not only when it lies on the raw grid: with scale 1 and offset 0 every finite number goes to the nearest integer, the even one of two; with integer scale and offset every integer goes to the raw value nearest to (value - offset) / scale, the even one of two; with any finite scale and offset the raw value differs from (value - offset) / scale by at most one half plus the rounding errors of the float operations, 2^-50 * ((|value| + |offset|) / |scale| + 1).", "quantifier": "all ints and finite floats as scale, offset and value, with scales between 2^-400 and 2^400 in magnitude (integer scales up to 2^900 and values within 2^51 of the offset for the exact claim); refuted for larger values", "why_tests_cant": "Tests encode a few values on the grid; truncation, floor division or a doubly rounded quotient differ only for values between two raw values or close to a tie.", "anchors": ["src/cantools/database/conversion.py: IdentityConversion.numeric_scaled_to_raw, LinearIntegerConversion.numeric_scaled_to_raw, LinearConversion.numeric_scaled_to_raw, BaseConversion.factory"]}
{"id": "C60", "title": "Drawing of the message layout", "statement": "The ASCII drawing of a message layout shows every bit where it is. Below four header lines each byte has a line with its number and, for each of its bits from 7 to 0, three characters at the columns of the bit: blanks if no signal has the bit; if one signal has it, '-' with '<' in front for the most significant and 'x' behind for the least significant bit of the signal; 'XXX' if several signals have it. Two neighbouring bits are joined exactly if one signal has both or both are shared. There are as many byte lines as the message, or its longest signal, needs. If names are asked for, every signal has exactly one line '+-- name', below the byte and at the column of its least significant (big endian) or most significant (little endian) bit, ordered by bit, with a bar at exactly those columns whose names follow further down.", "quantifier": "all messages with any number of signals, overlapping or not, fitting the message or not, of either byte order, with signals of positive length that start at or after bit 0; names shown or not; all bytes, bits, columns and label lines", "why_tests_cant": "Tests compare whole drawings of some twenty messages; the little endian picture is made by reversing chunks and the separators depend on the neighbouring cells, so errors show only for particular positions, lengths and overlaps.", "anchors": ["src/cantools/subparsers/dump/formatting.py: layout_string", "src/cantools/database/utils.py: start_bit"]}
{"id": "C61", "title": "SYM round trip", "statement": "A database that is dumped to SYM format and loaded again has the same messages, in some order, and the version 6.0. Of each message the id, frame format, name, length, comment and cycle time are the same (a cycle time of 0 is lost), a sole sender ECU or Peripherals is kept and any other list of senders becomes both, and its signals are a permutation of those dumped, each with its name, position, length, byte order, sign, scale, offset, float flag, value table, limits, unit, comment, SPN, multiplexer id and multiplexer signal; an empty unit or comment and an SPN of 0 are lost, and of a multiplexer only the name, position, length and byte order are kept. Messages of one name with consecutive ids share one range of ids in the file and are read as one message for each id; if an id of the range is missing nothing is written. With the default sort order the signals of a loaded message are ordered by start bit. Not kept, each shown by an example: multiplexer ids whose hexadecimal text starts with a letter, and id ranges of multiplexed messages (the file cannot be read), signals beside a multiplexer, several multiplexer ids, nested multiplexing, multiplexers without signals, different signals of one name, value tables of signals whose names agree in 31 characters, 16-bit floats, comments of two lines, quotation marks in units, repeated ids.", "quantifier": "all databases whose messages are plain or have one multiplexer that selects every other signal by one id, whose signals of one name and messages of one name agree but for their place and id, whose names have at most 32 characters, and whose texts and numbers can be written in the grammar; all orders in which sets are listed and all sort functions", "why_tests_cant": "Tests dump and load a few files; the round trip must hold for every text, every id range and every multiplexer id, and it fails for the ids 10 to 15, 160 to 255 and so on, which no test file has.", "anchors": ["src/cantools/database/can/formats/sym.py: dump_string, load_string, Parser60, _dump_choices, _dump_signals, _dump_messages, _dump_message, _load_enums, _load_signal, _load_signals, _load_message_signals, _load_message"]}
{"id": "C62", "title": "Strict encoding of containers and gathering", "statement": "Encoding a container message with strict=True succeeds exactly if encoding without strict succeeds and every element is admissible: bytes under a plain header id always are, other bytes have exactly the length of the one contained message that the name, object or header id refers to, and signal values are encoded by that message with strict=True; the bytes are then the same. gather_container succeeds exactly if every header refers to exactly one contained message and its signals can be gathered; each gathered dictionary holds the given values of exactly the signals that the given values select, and nothing else.", "quantifier": "every container, list of headers with bytes or signal values, scaling and padding flag, and every dictionary of values", "why_tests_cant": "all containers, elements and values", "anchors": ["src/cantools/database/can/message.py:encode,assert_container_encodable,gather_container"]}
{"id": "C63", "title": "Generated C encode and decode functions", "statement": "The generated C function decode() computes the value that decode() of the library computes, if all intermediate results are small enough for doubles, and encode() with rounding computes the raw value that encode() of the library computes, except that of two equally near values it takes the one away from zero while the library takes the even one (shown by an example), and it is undefined exactly if that raw value does not fit the member. encode() of decode() of a raw value gives the raw value if rounding is asked for; without rounding it gives the raw value or the one next to it towards zero, and the second does happen (scale 0.1, offset -40, raw 3). For double signals both functions compute the values of the library, and encode() of a float signal of 32 bits gives the float nearest to the raw value of the library, if that is at most 2^120. is_in_phys_range() with two limits is true exactly for numbers between the limits, and such numbers are encoded to raw values between those of the limits.", "quantifier": "all scales and offsets that are doubles and within stated bounds, signed and unsigned members of every width, all raw values up to 2^49 (2^53 for decode), all double values", "why_tests_cant": "Tests compile the generated code and compare a handful of values; the results depend on the rounding of each division and subtraction.", "anchors": ["src/cantools/database/can/c_source.py: _generate_encode_decode, _generate_is_in_phys_range, SIGNAL_DEFINITION_ENCODE_FMT, SIGNAL_DEFINITION_DECODE_FMT, SIGNAL_DEFINITION_IS_IN_PHYS_RANGE_FMT", "src/cantools/database/conversion.py: BaseConversion.factory, raw_to_scaled, scaled_to_raw"]}
{"id": "C64", "title": "Generated C init function", "statement": "After the generated C function init() every member whose signal has an initial value holds the raw initial value if the physical initial value counts as true in Python, and zero otherwise; all other members are zero. So for a linear signal without offset the member always holds the raw initial value, but for a signal with an offset whose initial physical value is 0 it does not (offset -40, raw initial value 40: the member is 0, which reads as -40).", "quantifier": "all lists of signals with different member names, with or without initial values, and all conversions", "why_tests_cant": "Tests have no signal with an offset and an initial physical value of zero.", "anchors": ["src/cantools/database/can/c_source.py: _generate_definitions, MESSAGE_DEFINITION_INIT_FMT, INIT_SIGNAL_BODY_TEMPLATE_FMT", "src/cantools/database/can/signal.py: Signal.initial"]}
{"id": "C65", "title": "Decoding raises only DecodeError", "statement": "For an ordinary database decoding any payload either succeeds or raises DecodeError; decode_message() raises KeyError exactly if no message has the given id or name, and DecodeError otherwise. This holds for plain and multiplexed messages and for containers, with every combination of decode_choices, scaling and allow_truncated. Ordinary means: signals of at most 512 bits, scale and offset that fit a double, no value table on a float signal, unscaled integer multiplexers, and contained messages with different header ids. The conditions on float signals and header ids are needed: a float signal with a value table raises ValueError on a NaN and OverflowError on an infinity, and a container with two contained messages of the same header id raises the general error.", "quantifier": "all messages that pass the strict consistency checks, all containers and databases of such messages, all payloads, all option values", "why_tests_cant": "A caller that catches DecodeError relies on no other exception for any payload on the bus; tests try a few short payloads.", "anchors": ["src/cantools/database/can/message.py: Message.decode, decode_simple, decode_container, unpack_container", "src/cantools/database/utils.py: decode_data", "src/cantools/database/can/database.py: Database.decode_message", "src/cantools/database/conversion.py: LinearConversion, NamedSignalConversion"]}
{"id": "C66", "title": "decode command", "statement": "The decode command prints one entry for each line of its input and ends with an exception only if the log reader raises one, for an ordinary database. A line that is no frame is printed as it is; a frame is followed by ' ::' and a text. For a file of candump lines this text is: 'Unknown frame id' with the decimal and hexadecimal id if the database has no message of this id; otherwise the message name and, in parentheses, exactly the signals that are present in the payload, in the order of the message, each with its decoded value and, if it is a number, its unit, on one line or on a line each; or an error text if and only if the payload has the wrong size or selects an unknown multiplexer id. For containers each contained message is shown in this way in the order of the payload, with the bytes of unknown and undecodable ones. Two deviations: the frame format is ignored, so an extended frame with an id up to 0x7FF is shown as the standard message with that id, and an extended message with such an id is reported as unknown; and a NaN in a float signal with a value table ends the command with ValueError.", "quantifier": "all ordinary databases (C65), all input lines, all candump files, all values of --single-line, --no-decode-choices, --no-decode-containers and --no-strict, all units", "why_tests_cant": "Tests compare the output for a few recorded log lines; that no line of a long log ends the command or loses a signal is a statement about all payloads.", "anchors": ["src/cantools/subparsers/decode.py: _do_decode", "src/cantools/subparsers/__utils__.py: format_message_by_frame_id, format_signals, format_container_message, format_message", "src/cantools/logreader.py: Parser.iterlines"]}
{"id": "C67", "title": "monitor", "statement": "Whatever frames arrive and whatever keys are pressed in whatever order, the text based monitor ends only when q is pressed outside of the filter line, provided that no frame of a container has a contained message that cannot be decoded and no signal is a float with a value table. Every screen has the number of frames taken from the queue since the last reset, the number of those with an unknown id, the number of all frames that could not be decoded, the filter and, while the filter is edited, the text and the cursor that the keys give. Without reset and without a change of the filter, the screen has in alphabetical order exactly the entries that had a signal matching the filter (by its own name or by that of its message), an unknown contained message or an undecodable frame, each with the time stamp relative to the first frame and the decoded values of the latest frame, restricted to the matching signals, and at most as many lines as the terminal has, from a position that leaves no free line below unless all lines fit. After every key in the filter line the same holds with the new filter for the latest frame of every message and the frames taken since, except that messages that had an undecodable frame may be listed although they do not match. A paused monitor takes no frames and loses none. Deviations: an undecodable contained message ends the monitor with an AttributeError; a message without signals is never listed; a message with an undecodable frame stays listed with all signals although it does not match the filter; reset keeps the number of undecoded frames, applies the removed filter to the next frame, and the messages before the reset come back after a change of the filter.", "quantifier": "all ordinary databases (C65) whose names have no blanks, all sequences of frames, ticks, key presses and terminal sizes, all filters and all meanings of regular expressions, all units, single and multi line formatting", "why_tests_cant": "Tests replay a few scripted sessions with a mocked terminal; a property of all interleavings of frames, keys and redraws cannot be covered by scripts.", "anchors": ["src/cantools/subparsers/monitor.py: Monitor.run, tick, redraw, process_user_input, process_user_input_menu, process_user_input_filter, compile_filter, try_update_message, update_messages, update, insort_filtered, _filter_signals, _update_message_error, _format_message, _update_formatted_message"]}
{"id": "C68", "title": "loading diagnostics databases from CDD files", "statement": "A CDD file is accepted exactly if it has the elements and attributes the loader needs and no field of a used data type has a negative length; any other file is a KeyError, ValueError, ParseError, RuntimeError, IndexError or the error of bitstruct. The database then has one DID for each DIAGINST, in the order of the file, with its name and identifier and one field for each of its data objects: its own, then those in the structures of its unions, then those of the library DIDs it refers to. A field has the length, byte order, limits, unit, scaling and single-value texts of the last data type with the referenced id. If every big endian field lies in one byte or consists of whole bytes, the fields lie back to back from bit 0 in the data, the DID has the number of bytes needed for them, and raw values that fit are encoded and decoded back. The lookups by name and identifier give the last DID with this name or identifier, and a KeyError if there is none. Deviations: other big endian fields overlap, and what is encoded may not decode; the fields of a union come after all others even if it stands first; a reference to a missing library DID is no error and its fields are left out; texts for ranges of values are ignored.", "quantifier": "all element trees and all texts the XML reader accepts, all meanings of int() and float(), all DIDs, field lists and data", "why_tests_cant": "The tests load four files; which files are accepted and where the fields of all files lie cannot be enumerated.", "anchors": ["src/cantools/database/diagnostics/formats/cdd.py: load_string, _load_data_types, _load_choices, _load_data_element, _load_did_element, _load_did_data_refs", "src/cantools/database/diagnostics/database.py: Database.add_cdd_string, refresh, get_did_by_name, get_did_by_identifier"]}
{"id": "C69", "title": "references in ARXML files", "statement": "An ARXML system file passes the scan for references exactly if no two elements with a SHORT-NAME have the same path, every REFERENCE-BASE has a label and a package and none is global, and no package has two bases with one label or two default bases; otherwise loading ends in ValueError or AttributeError. In an accepted file, a reference that starts with / leads to the one element of that path and of the kind given by DEST; any other reference leads to the element below the target of the base named by BASE (or of the default base) of the closest enclosing package that has one, and it is a ValueError if there is none. Looking at a location (a list of element names) gives exactly the elements that one reaches entry by entry by going to children of that name or along references NAME-REF; it fails, with ValueError or AttributeError only, exactly if a reference on the way leads nowhere or there are several elements at an entry that is not marked with *. Without such marks at most one element is found. Deviation from the documentation: the mark & makes no difference, references are followed without it.", "quantifier": "all element trees, all namespaces, all elements, references, bases, kinds and locations whose names do not start with a mark", "why_tests_cant": "The tests load a few hand-written files; which elements a reference leads to depends on the whole tree, with any nesting of packages and bases.", "anchors": ["src/cantools/database/can/formats/arxml/system_loader.py: SystemLoader._create_arxml_reference_dicts, _get_absolute_arxml_path, _follow_arxml_reference, _get_arxml_children, _get_unique_arxml_child"]}
{"id": "C70", "title": "numbers in ARXML files", "statement": "The text of a number, without white space at its ends and in lower case, is read as follows and in no other way: true and false are 1 and 0; nothing but white space is 0; a zero followed by a decimal digit starts an octal number; otherwise a Python integer literal (decimal, 0x, 0o, 0b, single underscores, a sign) is that integer; otherwise a text that starts with 0x is what float.fromhex() gives and any other one what float() gives. Any other text is a ValueError (or what float.fromhex() raises), and a missing text an AttributeError. Where an integer is required, a float is accepted exactly if it is one. In particular the decimal text of every integer and all hexadecimal, octal (0o and C style) and binary numerals of it are read back as that integer, whatever white space is around them. Deviation from the octal rule: it holds without a sign only, 010 is 8 and -010 is -10; and 00.5 is refused although float() reads it.", "quantifier": "all texts, all integers, all meanings of float() and float.fromhex()", "why_tests_cant": "The tests read a few texts; the set of texts is infinite and the order of the attempts (octal, integer, hexadecimal float, float) interacts in corner cases.", "anchors": ["src/cantools/database/can/formats/arxml/utils.py: parse_number_string"]}
{"id": "C71", "title": "signals of PDUs in ARXML system files", "statement": "When a PDU is loaded, its signals are exactly those that the file gives it, and each lies where the file says: an ordinary PDU has one signal for every signal mapping that leads to an I-SIGNAL (start from START-POSITION, length from LENGTH, big endian iff MOST-SIGNIFICANT-BYTE-FIRST, signed iff the encoding is 2C, 1C or SM, floating point iff it is IEEE754); a secured PDU has the signals of its payload; a multiplexed PDU has in addition a selector called <frame>_selector<n> at the selector field, the signals of each alternative, which depend on that selector with the alternative's code unless they already depend on one and without the signal at the place of the selector, and the signals of the static parts. Behind the payload of a secured PDU the freshness value (if it has a positive length) follows at once and the authenticator follows the freshness value, both big endian. Deviations: the name of a signal is the one of the I-SIGNAL even where a system signal has another name; the selectors in different alternatives of a multiplexed PDU have equal names; an authenticator without a length of the freshness value is a TypeError.", "quantifier": "all ARXML trees, all PDUs in them however deeply multiplexed or secured, AUTOSAR 3 and 4, all frame names and depths of recursion", "why_tests_cant": "The tests load a handful of files; PDUs nest without bound and refer to each other in arbitrary ways.", "anchors": ["src/cantools/database/can/formats/arxml/system_loader.py: _load_pdu, _load_multiplexed_pdu, _load_pdu_signals, _load_signal, _load_secured_properties"]}
{"id": "C72", "title": "messages, buses and nodes of ARXML system files", "statement": "A loaded ARXML system file has exactly one message for every CAN-FRAME-TRIGGERING that is reached from a CAN-CLUSTER in one of its packages, in any depth of packages. The message has the name and length of the frame, the identifier of the triggering, an extended identifier iff the addressing mode says EXTENDED, CAN FD iff the receive or transmit behavior says so, the name of the cluster as its bus, the unused bit pattern of the PDU (255 without one), the signals of the PDU and, if it is secured, those behind the payload; its cycle time is that of the PDU, which is the one of the payload for a secured PDU and the least one of all alternatives for a multiplexed PDU. If the PDU is a container with short headers, or secures one, the message contains exactly one message for every PDU that the container triggers, each with its own name, length, header id, unused bits, cycle time and signals. There is one bus for every cluster (in AUTOSAR 4: with a variant) with its bit rates and one node for every ECU-INSTANCE. Finding senders and receivers afterwards and end-to-end protection change none of this. Deviations: messages in containers are checked strictly even if the file is loaded without strict; the cycle time that a multiplexed PDU states itself is dropped; a PDU without LENGTH is an AttributeError although the loader treats it as optional.", "quantifier": "all ARXML trees that load, AUTOSAR 3 and 4, strict or not, all ways of sorting signals that lose and invent none, all meanings of float() and float.fromhex()", "why_tests_cant": "The tests look at a few files; a document may nest packages and refer to clusters, frames and PDUs in arbitrary ways, and nothing in the tests shows that no triggering is missed or that the later passes leave messages alone.", "anchors": ["src/cantools/database/can/formats/arxml/system_loader.py: SystemLoader.load, _load_buses, _load_nodes, _load_messages, _load_package_messages, _load_message, _load_pdu, _load_senders_and_receivers, _load_system, _load_e2e_properties"]}
{"id": "C73", "title": "scaling, names, units, comments and initial values of ARXML signals", "statement": "A signal of a loaded ARXML system file is scaled as its system signal's COMPU-METHOD says: TEXTTABLE gives a name to every single value, and the last entry for a value counts, however the number is written; LINEAR gives factor = second numerator / denominator, offset = first numerator / denominator and the limits put on this line (none if they are in the wrong order); SCALE_LINEAR_AND_TEXTTABLE gives both, the last line counts and names for intervals are left out; without a method, category or system signal the raw value is taken as it is. Decoding a raw value that has a name gives this name, and any other value is put on the line. The unit is the display name at the system signal, or else at the method, unless empty or NoUnit; the comments are, for every language, the last text that is not empty with white space removed at line ends; raw initial and invalid values are the integers found at their places, if these are integers, and the initial and invalid values are these, scaled. All of this holds for every signal of a PDU other than selectors, also if it belongs to an alternative, a static part or the payload of a secured PDU; selectors have neither scaling nor limits, unit or comments. Deviations: a LINEAR method of several pieces, and in AUTOSAR 3 a signal without system signal, make loading fail. An initial value that is no number does not spoil the file: the signal has none. The selector of a multiplexed PDU calls its values as the signals at its place in the alternatives do; where several of them name a value, or have a value that stands for no value, the last one counts; its initial value is the code of the one alternative that is marked as the initial one, and two such alternatives make loading fail.", "quantifier": "all ARXML trees, AUTOSAR 3 and 4, all mappings and PDUs in them that load, all raw values, all meanings of float() and float.fromhex() that give doubles", "why_tests_cant": "Methods, limits, names and units are found along references through a whole document, and a test document has a handful of them; no test shows that the same value written twice, limits in any order or any mixture of lines and names are treated as the categories demand.", "anchors": ["src/cantools/database/can/formats/arxml/system_loader.py: SystemLoader._load_signal, _load_system_signal, _load_texttable, _load_linear, _load_linear_scale, _load_scale_linear_and_texttable, _load_arxml_init_value_string, _load_arxml_invalid_int_value, _load_system_signal_unit, _get_compu_method, _load_comments", "src/cantools/database/conversion.py: BaseConversion.factory"]}
{"id": "C74", "title": "senders, receivers and header byte order in ARXML system files", "statement": "In a loaded ARXML system file the senders of a message are exactly the ECUs which send one of the PDUs that the message is made of, and the receivers of each of its signals are exactly the ECUs which receive one of these PDUs. An ECU sends or receives a PDU if one of its groups of PDUs with the direction OUT or IN has it, or, in AUTOSAR 4, if a node of the network management whose controller is part of the ECU transmits or receives it. A message is made of the PDU of its frame, the payload of a secured PDU, the alternatives and static parts of a multiplexed PDU, the PDUs in a container, and so on below these; a message in a container is made of its own PDU. The headers in containers are big endian unless the last system of the file, not counting those below a package with a system, says little endian. Deviations: the name of an ECU as sender or receiver by a group of PDUs is without the white space around it, so that it need not be the name of any node; and an ECU that receives one alternative receives all signals of the multiplexed message.", "quantifier": "all ARXML trees that load, AUTOSAR 3 and 4, all sort functions that lose and invent nothing, any limit of recursion", "why_tests_cant": "Who takes part follows from references in all packages, at any depth, to PDUs that may be nested in any way; test documents have a few ECUs and PDUs, and a forgotten or additional sender in any other arrangement would not show.", "anchors": ["src/cantools/database/can/formats/arxml/system_loader.py: SystemLoader._load_senders_and_receivers, _load_senders_receivers_of_ecu, _load_senders_receivers_of_nm_pdus, __get_messages_of_pdu, _load_system, _load_pdu, _load_multiplexed_pdu, _load_message, _get_arxml_children, _follow_arxml_reference"]}
{"id": "C75", "title": "end-to-end protection and authentication in ARXML system files", "statement": "In a loaded ARXML system file every message, also one in a container, has the end-to-end protection that the file states: the last profile, in the order of the packages, protections and PDUs of the file, which a protection states for one of the PDUs that the message is made of, with its category and its data ids in order, and the length of the secured payload or else of the message; without such a profile that of the last signal group of its PDU, or for a secured PDU of the payload, with the profile name of the transformer, the data ids and the length of the PDU; and none otherwise. Containers keep what their own signal group says. A message is secured exactly if its PDU is, and then has the names of its freshness and authentication properties, the length of its payload, its data id and the lengths of freshness value and authenticator as the file states. It is one of network management, or a general purpose one, exactly if the tag of the PDU of its frame says so. Deviations: the protected length is the length of the frame if a protection of the file states the profile, but that of the PDU if a signal group does; and a container can be end-to-end protected, by a signal group.", "quantifier": "all ARXML trees that load, AUTOSAR 3 and 4, all sort functions that lose and invent nothing, any limit of recursion", "why_tests_cant": "Which profile counts depends on the order of all packages and protections and on every way in which PDUs nest; the test documents have one protection for a PDU, so that taking the first one, or missing a nested PDU, would not show.", "anchors": ["src/cantools/database/can/formats/arxml/system_loader.py: SystemLoader._load_e2e_properties, _load_e2e_data_id_from_signal_group, _load_secured_properties, _load_message, _load_pdu, __get_messages_of_pdu, _get_arxml_children", "src/cantools/database/can/formats/arxml/end_to_end_properties.py: AutosarEnd2EndProperties", "src/cantools/database/can/formats/arxml/secoc_properties.py: AutosarSecOCProperties", "src/cantools/database/can/formats/arxml/message_specifics.py: AutosarMessageSpecifics"]}
{"id": "C76", "title": "ECU extracts of AUTOSAR", "statement": "Loading an ECU extract gives exactly the messages that the configuration of its module Com states, in order: the only reference of the first value collection that ends in /Com names the package; each container of kind ComIPdu there gives one message, or none if the first configuration of the CAN interface about its PDU does not state the id, the length and the type of the id. The message has its name, that frame id, length and extended-id flag, and the signals that its ComIPduSignalRef references name, in order; one that is not found or has no position, size or byte order is left out. The last parameter of a name counts; a signal has the position, length and byte order stated, is signed exactly if its type is SINT8, SINT16 or SINT32, and floating exactly if FLOAT32 or FLOAT64, and is not scaled. For an AUTOSAR 4 file this loader is chosen exactly if there is a value collection, otherwise the system loader; whatever loads has a root tag AUTOSAR in a namespace of autosar. Deviations: signals of type SINT64 become unsigned, and any text is accepted as byte order.", "quantifier": "all element trees, strict or not, all sort functions that lose and invent nothing", "why_tests_cant": "The tests load one extract; which container, parameter or reference counts when there are several, or when parts are missing, is seen only over all documents.", "anchors": ["src/cantools/database/can/formats/arxml/ecu_extract_loader.py: EcuExtractLoader", "src/cantools/database/can/formats/arxml/__init__.py: is_ecu_extract, load_string"]}
{"id": "C77", "title": "Header, source and fuzzer of the generated C code fit together", "statement": "The header generated for all nodes or for one node declares exactly: pack for each message the node sends, unpack for each message of which it receives a signal, init for both, encode for the signals it sends, decode for those it receives (unless floating point numbers are switched off) and the two range checks for both, each with the C type of its signal (float or double, or the smallest integer type with enough bits). The source defines the same functions with the same types in the same order if every message has data and, under use_float, no double is among the signals. The structures are those of the messages that concern the node, with a dummy member if there are no signals, and bit fields, if asked for, of the length of the signal, which is at most the size of the type if signals have at most 64 bits. Every structure a function mentions is declared. The helpers of the source are exactly those its pack and unpack functions call, each once. The macros are exactly the frame id, length, extended flag, cycle time and names of those messages, and the choices of the signals the node sends or receives. What the fuzzer uses is declared and defined if the files are for all nodes. Deviations: init of a message without data is declared but not defined; such a message that does not concern the node gets functions with an undeclared structure; a double under use_float gets conflicting types in header and source; for one node the fuzzer uses functions and structures that do not exist; a longer signal gets a bit field wider than its type.", "quantifier": "all databases with any messages, signals, senders and receivers, all nodes, all options of the generator", "why_tests_cant": "The tests compile the files generated from a few databases; that declarations and definitions agree for every node and every option is a statement over all databases.", "anchors": ["src/cantools/database/can/c_source.py: generate, _generate_declarations, _generate_definitions, _generate_structs, _generate_helpers, _generate_fuzzer_source", "src/cantools/database/can/c_source.py: _is_sender, _is_receiver, _is_sender_or_receiver, _get_floating_point_type"]}
{"id": "C78", "title": "Storing a database in a DBC, KCD or SYM file keeps the coding of its messages", "statement": "If a database that the format can hold is dumped as DBC, KCD or SYM and the file is loaded again, every message encodes every dictionary of values to the same bytes as before, with the same acceptance of the values under any combination of scaling, padding and strict, and decodes every data to the same values under any combination of options (names of values only if floating point signals have none); and if the message object could be built before, it can be built afterwards. For DBC this needs signals with both limits or none, and not both 0; for KCD and SYM that no float equals the default scale 1 or offset 0 and no value table is empty; for SYM that multiplexers are unsigned integers without scaling, names and limits. Deviations: a limit missing in a DBC file is read as 0, so that a value accepted before is refused; a multiplexer loses its names in a SYM file.", "quantifier": "all databases that the format can hold, all messages with any signals and multiplexing, all data and all options of encode and decode", "why_tests_cant": "The tests compare the text or the attributes of a few reloaded files; that every payload and every dictionary is coded as before ranges over all databases and all data.", "anchors": ["src/cantools/database/can/database.py: Database.as_dbc_string, as_kcd_string, as_sym_string, add_dbc_string, add_kcd_string, add_sym_string", "src/cantools/database/can/message.py: Message.encode, Message.decode", "src/cantools/subparsers/convert.py: _do_convert", "src/cantools/database/can/formats/dbc.py: _load_signals, _load_messages", "src/cantools/database/can/formats/kcd.py: _load_signal_element, _load_message_element", "src/cantools/database/can/formats/sym.py: _load_signal, _load_message"]}
{"id": "C79", "title": "The drawing of the signal tree shows the multiplexing and can be read", "statement": "signal_tree_string (as printed by the dump and list commands) draws, for every message of the library, the tree in which the signals outside any multiplexer come in the order of the message, below every multiplexer its ids in ascending order, each with its name if it has one and its number, and below every id the signals it selects. Every line has one bar for each branch above it that goes on further down and a blank for each that does not, and then its label. The tree can be read back from the drawing; two messages with the same drawing, in whatever widths, have the same signals below the same ids. signal_choices_string lists the value tables of exactly the signals that have one, in the order of the message, with ascending values. Deviation: a name that does not fit into the width is broken and the rest of it stands there without the bars.", "quantifier": "all messages with any nesting of multiplexers, all widths in which the names fit", "why_tests_cant": "The tests compare the output for a few files; that bars and ids are right at every depth of nesting is a statement about all trees.", "anchors": ["src/cantools/subparsers/dump/formatting.py: signal_tree_string, signal_choices_string", "src/cantools/subparsers/dump/__init__.py: _dump_can_message", "src/cantools/subparsers/list.py: _print_message"]}
{"id": "C80", "title": "What the list command prints can be read back", "statement": "'cantools list' without names prints the names of all messages that --exclude-normal and --exclude-extended leave, once for each message and in alphabetic order. With names it prints, in their order, one block for each name (the message that the database finds by this name) or the line that there is none; with --print-all the names of all messages that are not excluded are added and everything is sorted. From the written text a simple reader recovers every message that is asked for: identifier, size, kind, bus, senders, cycle time, comments and the AUTOSAR properties; the names of its signals in their order; and of each signal the start bit, length, byte order, sign, type, selector with its values, receivers, unit, limits, initial and invalid value, scaling, comments and named values, each exactly once or not at all; and the same of every message in a container. So databases whose layouts differ never give the same text. The factor of a signal with whole factor and offset is missing only if they are 1 and 0. --print-buses and --print-nodes print the selected buses and nodes in the order of the database with their fields. Refuted: of two messages with one name --print-all prints the second twice and the first never; the excluding options do not apply to messages that are given by name; a comment of two lines can pass for a field; a factor within 1e-10 of 1 is not shown although it differs from 1.", "quantifier": "all databases (also containers with their contained messages) whose texts have no line ends and whose signals have distinct names, all arguments, all messages, signals, buses and nodes, every way to write numbers that gives one line not beginning with a blank", "why_tests_cant": "Tests compare the output for a few messages of example files; they cannot show that for no combination of optional fields, comments, units and selectors a line is missing, is printed twice or can be taken for another field or another signal.", "anchors": ["src/cantools/subparsers/list.py:_format_val", "src/cantools/subparsers/list.py:_print_message", "src/cantools/subparsers/list.py:_print_node", "src/cantools/subparsers/list.py:_print_bus", "src/cantools/subparsers/list.py:_do_list_buses", "src/cantools/subparsers/list.py:_do_list_nodes", "src/cantools/subparsers/list.py:_do_list_messages"]}
{"id": "C81", "title": "What the dump command prints can be read back", "statement": "'cantools dump' without comments prints, in the order of the database, one block for each message and after a container one for each message in it. Cutting the written text at the lines of dashes and looking up fields by their keys gives back: the name, the identifier in hexadecimal (of a contained message the header identifier), the length, the cycle time or '-', the senders joined with commas and 'and' or '-', of a J1939 message the priority, parameter group number, source, destination and format that belong to its identifier (which they determine), the names of the contained messages, and line for line the drawings of the layout and of the signal tree and the tables of values. So equal texts come from databases that do not differ in any of these. With -m the message is that which the database finds by the name, what is printed of it is the same text as without -m, and a name that is not there is a KeyError. Dumping a second time prints the same. It succeeds for all messages that pass the checks, have names that fit the terminal and, with J1939, identifiers of at most 29 bits. Of a diagnostics database name and length of each DID and names, start bits and lengths of its data are read back in their order. Refuted: dumping leaves the database unchanged (a message without senders is sent by '-' afterwards); no sender and a sender '-' can be told apart; the command works on a terminal that reports less than three columns.", "quantifier": "all databases (also containers) whose message names and senders have no line ends, whose signal names have no white space and whose texts of values do not end in white space; all widths of the terminal, all message names, all lists of DIDs", "why_tests_cant": "Tests compare the whole output for a few example files in one terminal width; they cannot show that in no database a drawing or a name can be taken for a field, a heading or the end of a block, or that the five J1939 fields always determine the identifier.", "anchors": ["src/cantools/subparsers/dump/__init__.py:_print_j1939_frame_id", "src/cantools/subparsers/dump/__init__.py:_dump_can_message", "src/cantools/subparsers/dump/__init__.py:_dump_can_messages", "src/cantools/subparsers/dump/__init__.py:_dump_diagnostics_database", "src/cantools/subparsers/dump/__init__.py:_do_dump", "src/cantools/database/utils.py:format_and"]}
{"id": "C82", "title": "What the plot command collects, where it draws it and what it leaves out", "statement": "An argument of 'cantools plot' selects the signals whose full name (message, point, signal) fits the text before its first colon, where '*' stands for any characters and '?' for one, every other character for itself (for both cases of a letter unless --case-sensitive is given), and a text without a point is one for the signals of any message. What follows the colon is the format, a bar at its beginning asks for stems. Each argument goes to the subplot and the axis given by the '-' and ',' before it; without any argument everything is drawn, on the last. The values that are collected are, for each selected signal that occurs in the log, all of its values in the order of the frames, with a break after a value exactly if the next one is further away than the break time. Frames with an unknown identifier and frames that cannot be decoded are marked and reported according to the options. For each argument those collected signals are drawn, in alphabetical order and each once, that it selects and that no earlier argument selects, or whose first selecting argument has the same name; a warning is printed exactly for arguments for which nothing is drawn. Refuted: a signal whose complete name is given is drawn even if it was drawn before, as the source says (never, because the pattern always contains a point); with --case-sensitive only values of selected signals are collected.", "quantifier": "all lists of arguments, all signal names without line ends, all databases (any lookup and decoding function), all sequences of frames, all break times and options", "why_tests_cant": "Tests run a few command lines with a mocked matplotlib; that no other character of a name acts as a wildcard, that escaping and replacing do not interfere and that no combination of separators, repeated and overlapping arguments draws a signal twice or not at all is a statement about all arguments.", "anchors": ["src/cantools/subparsers/plot.py:Signals.__init__", "src/cantools/subparsers/plot.py:Signals.add_signal", "src/cantools/subparsers/plot.py:Signals.compile_reo", "src/cantools/subparsers/plot.py:Signals.add_value", "src/cantools/subparsers/plot.py:Signals.plot", "src/cantools/subparsers/plot.py:Signals.is_replotting_desired", "src/cantools/subparsers/plot.py:Plotter.add_msg"]}
{"id": "C83", "title": "What the plot command reads from its input and what --start and --stop leave of it", "statement": "A line that candump prints, with or without a time in parentheses and with or without what 'cantools decode' appends, is read by 'cantools plot' with exactly its time, identifier and data, and so is a line that candump -l writes, which is not mistaken for the other format. The format of the whole input is that of the first line that is in one of the two. The first frame decides what the horizontal axis is: its date, its seconds as a date if they are above the threshold and can be one, its seconds otherwise, and the line number if there is no readable time; every later frame is placed by the same rule. --start is understood relative to the first frame, --stop relative to --start if that is given and to the first frame otherwise. Then every line is judged by itself: frames before the start are skipped, the first frame after the end ends the input, all other frames are passed on in order, other lines are reported with their number, and empty lines and the output of 'cantools decode' are skipped without being counted. Refuted: --start and --stop restrict the lines with --line-numbers (or --show-invalid-syntax), since the first frame then raises TypeError; a frame with an odd number of data digits or too long an identifier is reported as an unreadable line, since it ends the command with an exception.", "quantifier": "all printable identifiers, data, times and spacings of a line; all inputs (lists of lines), all values of --start, --stop and --line-numbers, and all conversions of texts to times", "why_tests_cant": "Tests feed a few recorded logs. That no time, channel name or spacing confuses the two patterns, that the format and the kind of time found at one line are kept for all others, and which frames are left in a window are statements about all inputs; the two deviations need option combinations and malformed frames that no test has.", "anchors": ["src/cantools/subparsers/plot.py:_do_decode", "src/cantools/subparsers/plot.py:_mo_unpack", "src/cantools/subparsers/plot.py:RE_CANDUMP", "src/cantools/subparsers/plot.py:RE_CANDUMP_LOG", "src/cantools/subparsers/plot.py:RE_DECODE", "src/cantools/subparsers/plot.py:TimestampParser.first_parse_timestamp", "src/cantools/subparsers/plot.py:TimestampParser.parse_timestamp", "src/cantools/subparsers/plot.py:TimestampParser.init_start_stop"]}
{"id": "C84", "title": "Which relative times the plot command understands and what they mean", "statement": "If the times of a log are relative, a value of --start or --stop of 'cantools plot' that is no plain number is accepted exactly if it has one of these forms: ':M:S', 'M:S.', 'M:S.f', 'H:M:', 'H:M:S', 'H:M:S.f', or a number of days, 'day' or 'days', alone or followed by a comma, a blank and 'H:M', 'H:M:', 'H:M:S' or 'H:M:S.f'; here H, M, S and the days are one or two digits and f is one or more. A line end may follow. The value is exactly days * 86400 + H * 3600 + M * 60 + S + 0.f seconds. No text has two meanings, in particular two numbers with only a colon between them are refused, and everything else is refused with ValueError. What Python prints for a time difference of less than a hundred days, with or without days and microseconds, is understood as exactly that time. Refuted: this holds for all time differences (from a hundred days on it is refused).", "quantifier": "all texts; all numbers of days, seconds and microseconds; any function that converts plain numbers", "why_tests_cant": "Tests try some texts for each pattern. That the order in which the sixteen patterns are tried never matters and that no other text is accepted are statements about all texts.", "anchors": ["src/cantools/subparsers/plot.py:TimestampParser.parse_user_input_relative_time", "src/cantools/subparsers/plot.py:TimestampParser.strptimedelta_in_seconds"]}
{"id": "C85", "title": "What the inexact comparison of databases compares, and that it ends", "statement": "Two databases are similar exactly if no pair of corresponding parts that can be reached from them differs. Corresponding parts are entries at the same place of two lists or tuples, values of the same key of two dictionaries, and public attributes of the same name of two objects of one class with the same attribute names; messages of a database correspond by frame id and signals of a message by name, whatever their order, if the object has such an index; with include_format_specifics=False the attributes 'dbc' and 'autosar' do not count. A pair differs if the types differ, if numbers, texts or sets are not equal, if floats differ by more than the tolerance (relative to the first one if its absolute value is above one, else absolutely), if lengths differ, if a key is only on one side, or if the attribute names differ. Every reported difference exists at the reported place, and every difference of a reachable pair is reported at a place where that pair is reached. The comparison ends although objects are shared and refer to each other in cycles. For a tolerance that is not negative every database is similar to itself. Refuted: NaN differs from other floats (it is similar to every float); the order of the two databases does not matter; all of this holds even if two objects that exist at different times have the same id().", "quantifier": "all finite graphs of objects, with sharing and cycles; all floats and tolerances; both settings; all paths", "why_tests_cant": "Tests compare a few databases with themselves and with changed ones. That pairs that were seen before can be skipped without missing a difference, and that this always ends, are statements about all object graphs.", "anchors": ["src/cantools/database/can/database.py:Database.is_similar", "src/cantools/database/can/database.py:Database._differences"]}
{"id": "C86", "title": "Encoding and decoding in generated C code that uses float", "statement": "If C code is generated with use_float, the decode function of an integer signal gives raw * scale + offset with a relative error of at most 2^-22 of |raw * scale| + |offset| (plus 2^-148) for raw values of up to 24 bits, where scale and offset are the floats that the compiler reads. If scale and offset are integral and all numbers that occur have at most 24 bits, decode is exact and encode inverts it, with and without use_round. For any scale between 2^-100 and 2^90 and any offset of at most 2^20 scales, encode with use_round inverts decode for all raw values of up to 20 bits; without use_round the result may be one step nearer to zero and is never further away. is_in_phys_range tells exactly whether a float is between the limits as the compiler reads them, and a limit that is not given is not checked. Refuted: encode inverts decode for all raw values of the signal (an unsigned signal of 32 bits without scale and offset turns 16777217 into 16777216); is_in_phys_range refuses every value above the maximum of the database (for a maximum of 0.1 the float nearest to it, which is larger, is accepted).", "quantifier": "all integer signals, all raw values of the stated sizes, all scales and offsets, int or float; any reading of decimal texts by the compiler that is exact for integers of up to 24 bits", "why_tests_cant": "The tests of the generated code use double in nearly all cases and a few values. The bound on the raw values comes from the sum of four rounding errors in the worst case.", "anchors": ["src/cantools/database/can/c_source.py:_generate_encode_decode", "src/cantools/database/can/c_source.py:_generate_is_in_phys_range", "src/cantools/database/can/c_source.py:SIGNAL_DEFINITION_ENCODE_FMT", "src/cantools/database/can/c_source.py:SIGNAL_DEFINITION_DECODE_FMT"]}
