{"id": "C01", "title": "Base64 round trip", "statement": "Decoding the output of the Base64 encoder returns the original bytes, for every non-empty byte string, including strings long enough to be broken over several lines.", "quantifier": "every byte string of length >= 1", "why_tests_cant": "The input space is infinite and line folding plus padding interact with every length modulo 3 and 72.", "anchors": ["src/lib/util/base64.c: rrr_base64_encode, rrr_base64_decode"]}
{"id": "C02", "title": "Base64 encoder never overruns its buffer", "statement": "The number of bytes the Base64 and Base64url encoders write, including line feeds and the final NUL, never exceeds the number of bytes they allocate, and the reported length is the number of bytes before the NUL.", "quantifier": "every input length for which the size computation does not wrap 64 bits", "why_tests_cant": "An off-by-one in the size estimate only shows at particular lengths; tests sample lengths.", "anchors": ["src/lib/util/base64.c: rrr_base64_encode, rrr_base64url_encode"]}
{"id": "C03", "title": "Base64url round trip", "statement": "Decoding the output of the Base64url encoder returns the original bytes.", "quantifier": "every non-empty byte string", "why_tests_cant": "Depends on length modulo 3; holds for all inputs or fails for an infinite class.", "anchors": ["src/lib/util/base64.c: rrr_base64url_encode, rrr_base64url_decode"]}
{"id": "C04", "title": "Base64 decoder only returns decodings of its input and stays in its buffer", "statement": "For every input, a successful decode returns exactly 3 bytes per complete group of four alphabet characters (minus padding), characters outside the alphabet do not influence the result, and no byte is written outside the allocated output.", "quantifier": "every byte string given to the decoder", "why_tests_cant": "Adversarial inputs, with padding in unusual places, cannot be enumerated.", "anchors": ["src/lib/util/base64.c: rrr_base64_decode, rrr_base64url_decode"]}
{"id": "C05", "title": "HDLC frame round trip", "statement": "Exporting data as an HDLC frame and feeding the frame to the parser, after any amount of inter-frame noise without frame octets and any number of leading frame octets, yields exactly the original data and consumes up to and including the closing frame octet.", "quantifier": "every non-empty payload within the frame limit and every prefix noise", "why_tests_cant": "Escaping interacts with every byte value at every position; payloads cannot be enumerated.", "anchors": ["src/lib/hdlc/hdlc.c: rrr_hdlc_parse_state_init, rrr_hdlc_parse, rrr_hdlc_export_frame", "src/lib/hdlc/hdlc.h"]}
{"id": "C06", "title": "HDLC parsing is independent of how the stream is cut", "statement": "Feeding a byte stream to the HDLC parser in any sequence of pieces gives the same result as feeding it whole, and the parser never stores more than its fixed result buffer for any input stream.", "quantifier": "every byte stream and every way of cutting it into pieces", "why_tests_cant": "The number of cuts is exponential in the stream length and streams are unbounded.", "anchors": ["src/lib/hdlc/hdlc.c: rrr_hdlc_parse", "src/lib/hdlc/hdlc.h: struct rrr_hdlc_parse_state"]}
{"id": "C07", "title": "CRC-32 is the standard polynomial CRC and detects every short burst error", "statement": "The table driven checksum equals bitwise division by the CRC-32 polynomial for every input, and any two equally long byte strings that differ only inside a window of at most 32 bits have different checksums.", "quantifier": "every byte string and every error burst of at most 32 bits", "why_tests_cant": "Error patterns times messages is infinite; a single wrong table entry shows only on some inputs.", "anchors": ["src/lib/util/crc32.c: rrr_crc32buf, rrr_crc32cmp"]}
{"id": "C08", "title": "Hex encoding is exact and injective", "statement": "The hex encoder writes exactly two hex digits per source byte followed by a NUL, two different equally long sources give different strings, and the write stays inside the allocation as long as the 32 bit size computation does not wrap.", "quantifier": "every source byte string of fewer than 2^31 bytes", "why_tests_cant": "Arithmetic wrap-around needs multi-gigabyte inputs; injectivity quantifies over pairs of inputs.", "anchors": ["src/lib/util/hex.c: rrr_hex_bin_to_hex"]}
{"id": "C09", "title": "UTF-8 validation accepts exactly decodable strings", "statement": "A string without NUL bytes is accepted by the validator exactly when it is a concatenation of well formed UTF-8 sequences, and the iterator delivers exactly the code points of that concatenation, never reading past the end.", "quantifier": "every byte string", "why_tests_cant": "Multi-byte sequences may be truncated or malformed at any position.", "anchors": ["src/lib/util/utf8.c: rrr_utf8_validate, rrr_utf8_get_character, rrr_utf8_validate_and_iterate"]}
{"id": "C10", "title": "Message frame round trip", "statement": "A message prepared for sending and then received passes header and data checksum verification and yields the same type, value, timestamp, topic, class and data as the sender had.", "quantifier": "every message content, topic and field value within the declared ranges", "why_tests_cant": "Every combination of field values and data must survive; tests cover a handful.", "anchors": ["src/lib/messages/msg.c: rrr_msg_populate_head, rrr_msg_checksum_and_to_network_endian, rrr_msg_head_to_host_and_verify, rrr_msg_check_data_checksum_and_length", "src/lib/messages/msg_msg.c: rrr_msg_msg_prepare_for_network, rrr_msg_msg_to_host_and_verify"]}
{"id": "C11", "title": "Corrupted messages are rejected", "statement": "If any burst of at most 32 bits in the header (after the checksum field), or in the data, is altered in transit, the receiver rejects the message.", "quantifier": "every message and every burst error of at most 32 bits inside one protected region", "why_tests_cant": "Error pattern space times message space is infinite.", "anchors": ["src/lib/messages/msg.c", "src/lib/messages/msg_checksum.c", "src/lib/util/crc32.c"]}
{"id": "C12", "title": "An accepted message has its topic and data inside the received bytes", "statement": "For every byte string that passes verification, the topic and data regions computed from its header lie inside the received bytes and the data length is non-negative.", "quantifier": "every received byte string, including adversarial ones with valid checksums", "why_tests_cant": "An adversary chooses the header fields; each combination of size and topic length matters.", "anchors": ["src/lib/messages/msg_msg.c: rrr_msg_msg_to_host_and_verify, __message_validate", "src/lib/messages/msg_msg_struct.h: MSG_DATA_LENGTH"]}
{"id": "C13", "title": "Topic and data updates keep the message consistent", "statement": "Creating a message with a topic and data, or replacing its topic, gives a message whose topic, data, class and timestamp read back as given, with everything else preserved and the declared size equal to the sum of its parts.", "quantifier": "every topic, data and previous message", "why_tests_cant": "Size arithmetic must be right for all lengths, including wrap of the 32 bit size.", "anchors": ["src/lib/messages/msg_msg.c: rrr_msg_msg_new_empty, rrr_msg_msg_new_with_data, rrr_msg_msg_topic_set"]}
{"id": "C14", "title": "Array serialisation round trip", "statement": "Converting an array of typed, tagged values to a message and reading it back gives an array with the same tags, types, flags, element counts and value bytes in the same order.", "quantifier": "every array whose values are of serialisable types and whose total size fits the message format", "why_tests_cant": "Arrays of any length with any tags and values must survive.", "anchors": ["src/lib/array.c: rrr_array_new_message_from_array, rrr_array_message_iterate, rrr_array_message_append_to_array", "src/lib/type.c: pack and unpack functions"]}
{"id": "C15", "title": "Reading an array message never reads outside the message and terminates", "statement": "For every array message content, iterating over it either reports an error or visits values whose tag and data lie completely inside the message, after a number of steps bounded by the message length.", "quantifier": "every byte content of an array message", "why_tests_cant": "Adversarial lengths, including those near 2^32, cannot be enumerated.", "anchors": ["src/lib/array.c: rrr_array_message_iterate"]}
{"id": "C16", "title": "Indexed numeric access returns the indexed element", "statement": "Reading element i of a tagged numeric array value returns element i of that value for every i below the element count.", "quantifier": "every array value and every valid index", "why_tests_cant": "A wrong stride can go unnoticed because tests use index 0.", "anchors": ["src/lib/array.c: rrr_array_get_value_unsigned_64_by_tag, rrr_array_get_value_signed_64_by_tag"]}
{"id": "C17", "title": "Incrementer ids stay in range and cooperating instances never collide", "statement": "With a verified configuration the next id is always inside the configured range, and instances configured with the same modulus and different positions never produce the same id.", "quantifier": "every verified min, max, modulus, position and current value", "why_tests_cant": "Wrap-around at 2^32 and at max must hold for every configuration and every history of ids.", "anchors": ["src/lib/util/increment.c: rrr_increment_basic, rrr_increment_mod, rrr_increment_verify"]}
{"id": "C18", "title": "Incrementer prefix is recoverable", "statement": "Applying a verified prefix to an id and stripping it again returns the id and the prefix, and two ids with different prefixes are never equal.", "quantifier": "every verified prefix and id", "why_tests_cant": "Shift and bit width arithmetic must hold for every width.", "anchors": ["src/lib/util/increment.c: rrr_increment_apply_prefix, rrr_increment_strip_prefix, rrr_increment_verify_prefix"]}
{"id": "C19", "title": "MQTT packet identifiers in use are never handed out twice", "statement": "For every history of acquiring and releasing packet identifiers, an identifier that is returned is non-zero and was not in use, and identifiers stay in use until released.", "quantifier": "every history of acquire and release operations", "why_tests_cant": "Reuse bugs need particular histories of up to 65535 outstanding identifiers.", "anchors": ["src/lib/mqtt/mqtt_id_pool.c: rrr_mqtt_id_pool_get_id, rrr_mqtt_id_pool_release_id"]}
{"id": "C20", "title": "MQTT packet identifiers are only exhausted when all are in use", "statement": "Acquiring an identifier fails only when every identifier of the pool is in use; releasing one makes a later acquire succeed.", "quantifier": "every history of acquire and release operations", "why_tests_cant": "Requires reasoning about all histories and all 65535 identifiers.", "anchors": ["src/lib/mqtt/mqtt_id_pool.c"]}
{"id": "C21", "title": "MQTT topic matching follows the filter grammar", "statement": "A topic matches a filter exactly when the level by level rules of '+', '#', literal levels and '$' topics say so, for topics and filters of any depth, and the two matchers in the code base (token tree and linear) agree.", "quantifier": "every valid topic and filter", "why_tests_cant": "Infinitely many topics and filters.", "anchors": ["src/lib/mqtt/mqtt_topic.c: rrr_mqtt_topic_match_tokens_recursively, rrr_mqtt_topic_match_topic_and_linear_with_end, rrr_mqtt_topic_tokenize_with_end"]}
{"id": "C22", "title": "MQTT topic and filter validation accepts exactly the legal strings", "statement": "A filter is accepted exactly when it is non-empty, '+' occupies a whole level, and '#' occupies the last level; a topic name is accepted exactly when it is non-empty and contains no wildcard.", "quantifier": "every UTF-8 string", "why_tests_cant": "Infinitely many strings; position dependent rules.", "anchors": ["src/lib/mqtt/mqtt_topic.c: rrr_mqtt_topic_filter_validate_name, rrr_mqtt_topic_validate_name"]}
{"id": "C23", "title": "ACL never grants more than its entries", "statement": "If the ACL grants a subscription filter, then every topic delivered through that filter is matched by an ACL entry with sufficient permission.", "quantifier": "every ACL, every filter and every topic", "why_tests_cant": "Requires relating infinitely many topics to pairs of filters.", "anchors": ["src/lib/mqtt/mqtt_topic.c: rrr_mqtt_topic_match_tokens_recursively_acl", "src/lib/mqtt/mqtt_acl.c: rrr_mqtt_acl_check_access"]}
{"id": "C24", "title": "FIFO buffer delivers every entry exactly once in order", "statement": "For every history of writes, reads, searches, merges and clears, the buffer behaves as a list: each entry written is delivered exactly once unless kept or removed on request, in insertion order, and the entry count is the number of entries.", "quantifier": "every history of buffer operations and every callback behaviour", "why_tests_cant": "Pointer surgery bugs need particular histories and callback return values.", "anchors": ["src/lib/fifo.c: rrr_fifo_write, rrr_fifo_read, rrr_fifo_read_clear_forward_all, rrr_fifo_search, rrr_fifo_read_minimum"]}
{"id": "C25", "title": "FIFO ordered writes keep the buffer sorted", "statement": "Entries written with an order value are placed so that the buffer stays sorted by order, after every history of ordered writes and removals.", "quantifier": "every history of ordered writes and reads", "why_tests_cant": "Insertion position bugs depend on the history.", "anchors": ["src/lib/fifo.c: __rrr_fifo_write_update_pointers"]}
{"id": "C26", "title": "FIFO search-and-replace neither loses entries nor leaves dangling pointers", "statement": "During a search-and-replace pass an entry is removed only if the callback asked for it, a replaced entry stays in its position, and the buffer's pointers refer to live entries afterwards.", "quantifier": "every buffer content and every sequence of callback answers", "why_tests_cant": "The number of answer sequences is exponential in the number of entries.", "anchors": ["src/lib/fifo.c: rrr_fifo_search_and_replace"]}
{"id": "C27", "title": "Fixed point conversion is exact", "statement": "Converting a fixed point number to long double and back returns the number, and the printed and parsed hexadecimal form agree, for every 64 bit value in range.", "quantifier": "every 64 bit fixed point value", "why_tests_cant": "2^64 values.", "anchors": ["src/lib/fixed_point.c: rrr_fixp_to_ldouble, rrr_fixp_ldouble_to_fixp, rrr_fixp_to_str_16, rrr_fixp_str_to_fixp"]}
{"id": "C28", "title": "Quoted string values survive export and import", "statement": "Exporting a string value to its quoted form and importing the result returns the same bytes, for every string including quotes and backslashes.", "quantifier": "every byte string", "why_tests_cant": "Escaping is position dependent.", "anchors": ["src/lib/type.c: __rrr_type_export_str, __rrr_type_import_str"]}
{"id": "C29", "title": "Stream reassembly is independent of packetisation", "statement": "Messages delivered by the read framework depend only on the concatenated byte stream: however the stream is cut into reads, the same messages are delivered in the same order and no byte is lost, duplicated or reordered.", "quantifier": "every byte stream, every chunking, every length function that is decided by a prefix", "why_tests_cant": "Chunkings are exponential in stream length.", "anchors": ["src/lib/read.c: __rrr_read_message_using_callbacks"]}
{"id": "C30", "title": "Read buffers never overflow", "statement": "No read writes outside the receive buffer of the session for any sequence of read sizes, targets and overshoots.", "quantifier": "every history of reads", "why_tests_cant": "The growth policy depends on the history of sizes.", "anchors": ["src/lib/read.c: __rrr_read_message_using_callbacks"]}
{"id": "C31", "title": "Message slot delivers every message to every reader exactly once", "statement": "For every interleaving of writers and readers on a slot, each written message is delivered to every registered reader exactly once and in order, a message is not overwritten before all readers are done, and the statistics equal what happened.", "quantifier": "every interleaving of writers and readers and every callback answer", "why_tests_cant": "Thread schedules cannot be enumerated by tests.", "anchors": ["src/lib/message_holder/message_holder_slot.c: rrr_msg_holder_slot_read, rrr_msg_holder_slot_write"]}
{"id": "C32", "title": "A message handed to a slot is never used after being freed", "statement": "For every interleaving, no thread touches a message holder after its reference count has reached zero.", "quantifier": "every interleaving of a writer and readers", "why_tests_cant": "Needs a particular schedule between unlock and the next statement.", "anchors": ["src/lib/message_holder/message_holder_slot.c: rrr_msg_holder_slot_write_incref"]}
{"id": "C33", "title": "Shared memory allocator never hands out overlapping memory", "statement": "For every history of allocations and frees, memory handed out lies inside the heap, is at least as large as requested, and overlaps neither other live allocations nor the allocator's own index.", "quantifier": "every history of allocate and free calls with sizes below 2^64 - 8", "why_tests_cant": "Block reuse and merging depend on the history.", "anchors": ["src/lib/rrr_mmap.c: __rrr_mmap_allocate_with_handles, __rrr_mmap_free"]}
{"id": "C34", "title": "Shared memory channel is a reliable FIFO between two processes", "statement": "For every interleaving of one writer and one reader process, the reader receives exactly the written messages, unmodified, in order and each exactly once; a full channel is reported instead of overwriting.", "quantifier": "every interleaving of writer and reader steps", "why_tests_cant": "Process schedules cannot be enumerated by tests.", "anchors": ["src/lib/mmap_channel.c: rrr_mmap_channel_write_using_callback, rrr_mmap_channel_read_with_callback"]}
{"id": "C35", "title": "Text parser helpers stay inside their buffer", "statement": "Skipping blanks and comments, matching words and extracting names reads only inside the given text, advances monotonically, and keeps the reported line number equal to the number of line breaks passed.", "quantifier": "every text and every start position", "why_tests_cant": "End-of-buffer conditions at every position.", "anchors": ["src/lib/parse.c", "src/lib/parse.h"]}
{"id": "C36", "title": "Receiving a message never crashes the process or leaves the received memory", "statement": "For every octet string arriving on a socket, the message receive path either delivers a message or reports an error; it never terminates the process and never reads or writes outside the received block or the struct it unpacks to.", "quantifier": "every received octet string and every content of the memory after it", "why_tests_cant": "Crafted headers with correct checksums are outside what tests generate.", "anchors": ["src/lib/messages/msg.c: rrr_msg_get_target_size_and_check_checksum, rrr_msg_to_host_and_verify_with_callback", "src/lib/messages/msg_log.c: rrr_msg_msg_log_to_host", "src/lib/stats/stats_message.c: __rrr_msg_stats_unpack"]}
{"id": "C37", "title": "Log messages arrive as sent", "statement": "A log message sent with a prefix and a text is delivered to the log handler of the receiver with the same prefix and text.", "quantifier": "every prefix and text", "why_tests_cant": "Length fields of 16 bits and the position of the terminators interact for every pair of lengths.", "anchors": ["src/lib/messages/msg_log.c: rrr_msg_msg_log_new, rrr_msg_msg_log_prepare_for_network, rrr_msg_msg_log_to_host, rrr_msg_msg_log_to_str"]}
{"id": "C38", "title": "Statistics messages arrive as sent", "statement": "A statistics message packed and sent is delivered with the same type, flags, path and data.", "quantifier": "every path and data within the limits of the sending interface", "why_tests_cant": "All combinations of path and data length.", "anchors": ["src/lib/stats/stats_message.c: rrr_msg_stats_pack_and_flip, __rrr_msg_stats_unpack"]}
{"id": "C39", "title": "Tag/value map returns what was stored", "statement": "After replacing a tag its value is returned and all other tags are unchanged and tags stay unique; appending never changes an existing tag; a confirmed replacement happens exactly if confirmed; a pair definition is split at the first delimiter.", "quantifier": "every map, tag, value, delimiter and definition", "why_tests_cant": "Holds for all map contents and all strings.", "anchors": ["src/lib/map.c: rrr_map_item_replace_new, rrr_map_item_replace_new_with_callback, rrr_map_get_value, rrr_map_parse_pair"]}
{"id": "C40", "title": "Incrementer gives every message of a topic the next id", "statement": "For every history of messages, initial ids, message DB failures and restarts, the ids given to messages of one topic follow each other in the configured range without gap or repetition, and output topics of cooperating instances never coincide.", "quantifier": "every configuration, history, failure pattern and restart point", "why_tests_cant": "Histories with DB failures and restarts at every point cannot be enumerated.", "anchors": ["src/modules/p_incrementer.c: incrementer_process_subject, incrementer_process_id, incrementer_update_id"]}
{"id": "C41", "title": "Integers in imported data keep their value", "statement": "Importing an integer field of 1 to 8 octets, or an array of them, in big or little endian order, signed or unsigned, yields the integers the octets denote; too little data is reported as incomplete.", "quantifier": "every field length, count, sign and octet content", "why_tests_cant": "Sign extension must be right for every length and value; the number of elements is unbounded.", "anchors": ["src/lib/type.c: __rrr_type_import_int, __rrr_type_expand_be, __rrr_type_expand_le"]}
{"id": "C42", "title": "Decimal numbers in imported text keep their value", "statement": "A text field of optional blanks, sign and digits, ended by any other character, is imported as the number it denotes and exactly those characters are used; anything else is refused or reported incomplete.", "quantifier": "every text", "why_tests_cant": "All digit strings including those beyond 64 bits.", "anchors": ["src/lib/type.c: __rrr_type_import_numeric_str_raw, __rrr_type_import_ustr, __rrr_type_import_istr"]}
{"id": "C43", "title": "Octet, separator and text fields accept exactly what they are defined to accept", "statement": "A blob field takes the defined number of octets, sep and stx fields the defined number of separator or start characters, an nsep field all octets up to the next line or field end character; everything else is refused or reported incomplete.", "quantifier": "every buffer and definition", "why_tests_cant": "Acceptance is an if-and-only-if over all buffers.", "anchors": ["src/lib/type.c: __rrr_type_import_blob, __rrr_type_import_sep_stx, __rrr_type_import_nsep", "src/lib/type.h: RRR_TYPE_CHAR_IS_SEP, RRR_TYPE_CHAR_IS_STX"]}
{"id": "C44", "title": "An import result does not change when more data arrives", "statement": "If importing a field from the octets received so far succeeds or fails (other than 'incomplete'), importing from a longer buffer with the same beginning gives the same result.", "quantifier": "every type, buffer and continuation", "why_tests_cant": "Concerns every point at which the stream can be cut.", "anchors": ["src/lib/type.c: rrr_type_definition_* import functions", "src/lib/array_tree.c: __rrr_array_tree_import_value_callback"]}
{"id": "C45", "title": "Importing a field never crashes, stays in the buffer and makes progress", "statement": "For every definition the definition parser accepts and every buffer, import returns success, refusal or incomplete; it uses at most the octets given and, except for empty (vain) fields, at least one.", "quantifier": "every definition and buffer", "why_tests_cant": "Overflowing sizes and crafted headers are outside what tests generate.", "anchors": ["src/lib/type.c", "src/lib/array_tree.c: __rrr_array_tree_import_value_callback"]}
{"id": "C46", "title": "Messages embedded in data are imported unchanged", "statement": "A field holding messages is imported to the same messages and uses exactly their octets.", "quantifier": "every message and number of messages", "why_tests_cant": "All message contents, topic and data lengths.", "anchors": ["src/lib/type.c: __rrr_type_import_msg, __rrr_type_msg_unpack"]}
{"id": "C47", "title": "Packing a value for the network and unpacking it gives the value back", "statement": "For each type that can be sent, packing and unpacking preserve type, flags, tag, element count and data.", "quantifier": "every value of every type", "why_tests_cant": "All data contents and element counts, including embedded messages.", "anchors": ["src/lib/type.c: pack and unpack functions, rrr_type_value_new_and_unpack"]}
{"id": "C48", "title": "Numeric values convert to their decimal text", "statement": "Converting an integer value to text gives its numbers in decimal separated by commas; conversions of values to text and numbers never crash.", "quantifier": "every value", "why_tests_cant": "All 64 bit values and array lengths.", "anchors": ["src/lib/type.c: __rrr_type_h_to_str, __rrr_type_str_to_ull"]}
{"id": "C49", "title": "Numbers stored in an array are read back", "statement": "A signed or unsigned 64 bit number pushed to an array under a new tag is the number read under that tag; a number which does not fit the requested signedness is refused, and values already present are found as before.", "quantifier": "every array, tag and number", "why_tests_cant": "All 2^64 numbers and all arrays.", "anchors": ["src/lib/array.c: rrr_array_push_value_u64_with_tag, rrr_array_push_value_i64_with_tag, rrr_array_get_value_unsigned_64_by_tag, rrr_array_get_value_signed_64_by_tag"]}
{"id": "C50", "title": "Tag lookup finds the first value with the tag", "statement": "Looking up a tag in an array, or in a message made from it, finds the first value with exactly that tag and reports absence otherwise; a message that cannot be read is not reported to have the tag.", "quantifier": "every array, message and tag", "why_tests_cant": "All arrays and tags, including prefixes, empty tags and repeated tags.", "anchors": ["src/lib/array.c: rrr_array_value_get_by_tag, rrr_array_has_tag, rrr_array_message_has_tag, rrr_array_message_clone_value_by_tag", "src/lib/type.h: rrr_type_value_is_tag"]}
{"id": "C51", "title": "Splitting a value gives its elements", "statement": "A value holding several elements is split into exactly as many values as it has elements, of equal size, whose concatenation is the data of the value; uneven data is reported and no received value makes splitting crash.", "quantifier": "every value", "why_tests_cant": "All sizes and element counts.", "anchors": ["src/lib/array.c: rrr_array_selected_tags_split"]}
{"id": "C52", "title": "Array editing keeps the other values", "statement": "Removing by tag or type, trimming and rotating an array leave exactly the values they should, in order, and the number reported removed is the number removed.", "quantifier": "every array", "why_tests_cant": "All arrays and arguments.", "anchors": ["src/lib/array.c: rrr_array_clear_by_tag_checked, rrr_array_strip_type, rrr_array_trim, rrr_array_rotate_forward, rrr_array_rotate_reverse, rrr_array_value_get_by_index"]}
{"id": "C53", "title": "Exporting selected values", "statement": "Exporting the values with given tags yields the exports of exactly these values in array order and never writes outside the allocated buffer or crashes.", "quantifier": "every array and tag list", "why_tests_cant": "All arrays, selections and sizes near the 32 bit limit.", "anchors": ["src/lib/array.c: rrr_array_selected_tags_export"]}
{"id": "C54", "title": "Settings are a table", "statement": "For every history of additions, replacements and queries the settings of an instance answer as a table from names to values: a name is defined once unless replaced, at most the allowed number are stored, what was stored last is read back whatever else happens, numbers and yes/no answers are those written, and unused settings are reported exactly. No history aborts the program.", "quantifier": "every history of operations, every name and value", "why_tests_cant": "All histories of operations and all names and values.", "anchors": ["src/lib/settings.c: rrr_settings_add_string, rrr_settings_replace_string, rrr_settings_get_string_noconvert, rrr_settings_read_unsigned_integer, rrr_settings_check_yesno, rrr_settings_check_all_used, rrr_settings_iterate_packed"]}
{"id": "C55", "title": "Comma separated settings", "statement": "The elements read from a comma separated setting contain no comma and joined with commas give back the value except for a single comma at its end.", "quantifier": "every value", "why_tests_cant": "All values, with empty elements and commas at either end.", "anchors": ["src/lib/settings.c: rrr_settings_traverse_split_commas, rrr_settings_split_commas_to_array"]}
{"id": "C56", "title": "Configuration files say what is written in them", "statement": "A configuration file of instance blocks gives exactly the instances written in it, in order, with their names and settings, whatever blanks and comments are around them; and no text makes the parser read outside the text, run for ever or abort the program.", "quantifier": "every configuration text, every content and layout", "why_tests_cant": "All texts, layouts and contents.", "anchors": ["src/lib/configuration.c: rrr_config_parse_string, __rrr_config_parse_any, __rrr_config_parse_block, __rrr_config_parse_setting", "src/lib/instance_config.c: rrr_instance_config_parse_string"]}
{"id": "C57", "title": "Environment files say what is written in them", "statement": "The variables set from an environment file are those of its lines, in order, up to the first line in error: name and value separated by the first equals sign without blanks around them, a name alone meaning 1, comments and empty lines nothing. No file makes the parser read outside it or abort the program.", "quantifier": "every file content", "why_tests_cant": "All file contents, including ones without line end at the end.", "anchors": ["src/lib/environment_file.c: rrr_environment_file_parse, __rrr_environment_file_parse"]}
{"id": "C58", "title": "Conditions mean what they say in C", "statement": "The value of a condition is the value which the same text has in C with the precedence and grouping of C operators and 64 bit arithmetic, for every assignment of values to the names in it.", "quantifier": "every condition, every assignment of values", "why_tests_cant": "All expressions, of all depths and with all combinations of operators.", "anchors": ["src/lib/condition.c: rrr_condition_interpret, rrr_condition_evaluate", "misc/man/rrr_post.1: array definitions"]}
{"id": "C59", "title": "Condition texts cannot break the parser", "statement": "No text makes the parser of conditions read outside the text, run for ever or abort the program; accepted conditions hold well-formed names and numbers only; evaluating an accepted condition never aborts the program or has an undefined result.", "quantifier": "every text, every accepted condition and assignment of values", "why_tests_cant": "All texts and all accepted conditions.", "anchors": ["src/lib/condition.c: rrr_condition_interpret_raw, rrr_condition_interpret, rrr_condition_evaluate"]}
{"id": "C60", "title": "Route and method definitions do what is written", "statement": "A definition of a route or method is accepted exactly if it is a sequence of the documented instructions of which every one has its operands on the stack and which leaves the stack empty; executing it takes, for every answer on topic filters and array tags, the decisions which the instructions mean, in order, and bails out where written.", "quantifier": "every text, every place of the definition in it, every combination of answers", "why_tests_cant": "All texts and all combinations of answers.", "anchors": ["src/lib/discern_stack.c: rrr_discern_stack_interpret, rrr_discern_stack_execute, rrr_discern_stack_collection_execute", "misc/man/rrr.conf.5: routes"]}
{"id": "C61", "title": "Route and method definitions cannot break the program", "statement": "No text makes the parser of definitions read outside the text, run for ever or abort the program, and no accepted definition makes its execution leave its stack or abort the program, whatever the answers given are.", "quantifier": "every text, every accepted definition, all answers", "why_tests_cant": "All texts and all answers, including failing ones.", "anchors": ["src/lib/discern_stack.c: rrr_discern_stack_interpret, rrr_discern_stack_execute"]}
{"id": "C62", "title": "Messages go to the receivers chosen", "statement": "A message from an instance with routes is passed to exactly those readers for which the last decision of the definitions on the message is true, and if there are none, to the readers it would go to without the routes; names of others than readers are refused at startup.", "quantifier": "every list of definitions, every message", "why_tests_cant": "All definitions and all messages, with all topics and array tags.", "anchors": ["src/lib/instances.c: __rrr_instance_message_broker_entry_postprocess_callback, __rrr_instance_iterate_route_instances_callback", "src/lib/discern_stack_helper.c", "src/lib/message_holder/message_holder.c: rrr_msg_holder_nexthop_ok"]}
{"id": "C63", "title": "Websocket messages arrive as sent", "statement": "Whatever messages, pings and pongs a peer sends as the standard permits, however they are masked and fragmented and however the stream is cut into pieces, the owner of a websocket connection is given exactly the messages sent, in order, and every ping is answered by a pong with its data; what RRR sends is well-formed.", "quantifier": "every sequence of messages, fragmentation, masking, division into pieces", "why_tests_cant": "All messages, fragmentations, masks and divisions of the stream.", "anchors": ["src/lib/websocket/websocket.c: rrr_websocket_transport_ctx_read_frames, rrr_websocket_transport_ctx_send_frames, rrr_websocket_frame_enqueue", "src/lib/read.c: rrr_read_message_using_callbacks"]}
{"id": "C64", "title": "Websocket frames cannot break the receiver", "statement": "No octets from a websocket peer abort the program or make it use memory outside the frame; frames which the standard forbids are refused and close the connection.", "quantifier": "every octet stream, every state of the connection", "why_tests_cant": "All streams and all states.", "anchors": ["src/lib/websocket/websocket.c: __rrr_websocket_get_target_size, __rrr_websocket_receive_callback_interpret_step"]}
{"id": "C65", "title": "Silent websocket connections are noticed", "statement": "A websocket connection times out exactly when nothing has been received for the configured time, and a ping is sent exactly when the interval has passed since the last one and that one has been answered.", "quantifier": "every configured time, every point in time and state", "why_tests_cant": "All times and intervals, including large ones.", "anchors": ["src/lib/websocket/websocket.c: rrr_websocket_check_timeout, rrr_websocket_enqueue_ping_if_needed"]}
{"id": "C66", "title": "Messages of a UDP-stream arrive as queued, in order and once", "statement": "For a UDP-stream between two ends, whatever datagrams the network loses, doubles, delays and reorders: the messages (data and application data) given to the application at one end are exactly those queued at the other end up to some point, in order and each once, except empty messages and those refused by the validator, and neither end aborts.", "quantifier": "all sequences of queueing, sending, receiving, delivering, controlling and timing out at both ends, and all choices of the network among all datagrams ever sent", "why_tests_cant": "loss, doubling and reordering combine with fragmentation, windows, resending and acknowledgement ranges in unboundedly many ways", "anchors": [["src/lib/udpstream/udpstream.c", "rrr_udpstream_queue_outbound_data"], ["src/lib/udpstream/udpstream.c", "__rrr_udpstream_process_receive_buffer"], ["src/lib/udpstream/udpstream.c", "__rrr_udpstream_handle_received_frame"], ["src/lib/udpstream/udpstream.c", "__rrr_udpstream_send_loop"]]}
{"id": "C67", "title": "What a UDP-stream has accepted for sending is not lost while the stream lives", "statement": "While both ends of a UDP-stream live, each message accepted for sending is kept by the sender until the receiver has it, frames are not let go of before they are delivered, and all accepted messages can be delivered, however many datagrams were lost.", "quantifier": "all histories of both ends and of the network, and all points at which datagrams are lost", "why_tests_cant": "whether resending happens at all depends on which datagram is lost at which point of the history; a test loses some", "anchors": [["src/lib/udpstream/udpstream.c", "__rrr_udpstream_handle_received_frame_ack"], ["src/lib/udpstream/udpstream.c", "__rrr_udpstream_event_send"], ["src/lib/udpstream/udpstream.c", "__rrr_udpstream_event_periodic"], ["src/lib/udpstream/udpstream.c", "__rrr_udpstream_process_receive_buffer"]]}
{"id": "C68", "title": "No datagram harms a UDP-stream end", "statement": "A datagram written for a frame is read as that frame, a damaged one is refused, and datagrams and frames of any contents in any order neither abort the program nor make it use memory wrongly.", "quantifier": "all octet strings as datagrams, all frames, all orders, all damage of up to four neighbouring octets", "why_tests_cant": "the space of frames, numbers and orders is unbounded, and the harmful ones are rare", "anchors": [["src/lib/udpstream/udpstream.c", "__rrr_udpstream_checksum_and_send_packed_frame"], ["src/lib/udpstream/udpstream.c", "__rrr_udpstream_read_get_target_size"], ["src/lib/udpstream/udpstream.c", "__rrr_udpstream_read_callback"], ["src/lib/udpstream/udpstream.c", "__rrr_udpstream_handle_received_frame"]]}
{"id": "C69", "title": "Assured single delivery: every accepted message is delivered once", "statement": "With assured single delivery over UDP-streams, every message a client has accepted is delivered to the application of the receiver exactly once, or the client still holds it, whatever the network loses, doubles and reorders, however often connections are made again and whichever end is restarted; nothing else is delivered, and neither end aborts.", "quantifier": "all histories of clients and receiver, all losses, doublings and reorderings of control frames, all losses of streams, all numbers of messages and clients", "why_tests_cant": "the handshake of four steps interleaves with resending, expiry of ids and reconnects; duplicates only appear after hundreds of messages", "anchors": [["src/lib/udpstream/udpstream_asd.c", "rrr_udpstream_asd_queue_and_incref_message"], ["src/lib/udpstream/udpstream_asd.c", "__rrr_udpstream_asd_control_frame_callback"], ["src/lib/udpstream/udpstream_asd.c", "__rrr_udpstream_asd_do_send_tasks"], ["src/lib/udpstream/udpstream_asd.c", "__rrr_udpstream_asd_receive_messages_callback_final"], ["src/lib/udpstream/udpstream_asd.c", "__rrr_udpstream_asd_queue_update_delivery_grace"], ["src/modules/p_ipclient.c", "ipclient_asd_reconnect"]]}
{"id": "C70", "title": "Assured single delivery: the receiver goes on receiving", "statement": "A receiver with assured single delivery never refuses messages for good: memory of delivered messages, kept to recognise duplicates, is given up again.", "quantifier": "all histories, all numbers of messages and clients", "why_tests_cant": "the limit is reached only after thousands of messages from several clients", "anchors": [["src/lib/udpstream/udpstream_asd.c", "__rrr_udpstream_asd_receive_messages_possible_callback"], ["src/lib/udpstream/udpstream_asd.c", "__rrr_udpstream_asd_deliver_and_maintain_queue"]]}
{"id": "C71", "title": "URL encoding stands for the octets given", "statement": "Encoding octets for a URI gives text which stands for them according to RFC 3986, and decoding any correct text gives the octets it stands for; text which is not correct is refused, and no input makes either abort.", "quantifier": "all sequences of octets, all texts", "why_tests_cant": "the escapes may stand at any place, be cut off at any place and have any digits", "anchors": [["src/lib/http/http_util.c", "rrr_http_util_uri_encode"], ["src/lib/http/http_util.c", "rrr_http_util_urlencoded_string_decode"], ["src/lib/http/http_util.c", "rrr_http_util_uri_endpoint_and_query_string_split"]]}
{"id": "C72", "title": "Form fields arrive as they were sent", "statement": "Names and values of form fields (in a query string or a body of type application/x-www-form-urlencoded) are read as what their text stands for, in order and however they were encoded; fields written by the program are read back unchanged, and nothing aborts it.", "quantifier": "all lists of fields with any octets, all their encodings, all texts", "why_tests_cant": "separators, escapes and spaces may stand at every place of every field", "anchors": [["src/lib/http/http_part.c", "__rrr_http_part_query_string_parse"], ["src/lib/http/http_fields.c", "rrr_http_field_collection_to_urlencoded_form_data"], ["src/lib/http/http_fields.c", "rrr_http_field_value_set"]]}
{"id": "C73", "title": "Quoted header values stand for the value", "statement": "A header value is written as a token or a quoted string which stands for it according to RFC 7230, values which cannot be written are refused, and a quoted value is read back as it was; nothing is written outside of memory.", "quantifier": "all values of all lengths", "why_tests_cant": "each character may or may not need quotes or a backslash, and sizes near the limits are not tried", "anchors": [["src/lib/http/http_util.c", "rrr_http_util_header_value_quote"], ["src/lib/http/http_util.c", "rrr_http_util_unquote_string"]]}
{"id": "C74", "title": "URIs are taken apart at the right places", "statement": "A URI is taken apart into protocol, host, port (that of the protocol if not given) and path with query; the protocol decides whether encryption is used; relative references are kept as they are.  No text makes the program abort or read outside of it.", "quantifier": "all texts, all hosts, ports and paths", "why_tests_cant": "the separators may appear at every place, also where they separate nothing", "anchors": [["src/lib/http/http_util.c", "rrr_http_util_uri_parse"], ["src/lib/http/http_util.c", "rrr_http_util_uri_host_parse"], ["src/lib/http/http_util.c", "rrr_http_util_strcasestr"], ["src/lib/http/http_util.c", "rrr_http_util_uri_endpoint_prepend"]]}
{"id": "C75", "title": "HTTP messages with a known length are taken precisely", "statement": "However the octets of an HTTP/1 request or response arrive, in whatever pieces, the message is taken when its header is there and its length is that of the header and of the body told by Content-Length; method, URI, status code, header fields, persistence of the connection and the octets of the body are those sent, and octets behind the message are left alone.  A body sent with a method which has none is answered as a bad request.", "quantifier": "all methods, URIs, versions, status codes, simple header fields and bodies, all splits into arrivals at all addresses", "why_tests_cant": "the text may be split at every octet and names, values and numbers are of any length", "anchors": [["src/lib/http/http_part_parse.c", "rrr_http_part_parse"], ["src/lib/http/http_header_fields.c", "rrr_http_header_field_parse_name_and_value"], ["src/lib/http/http_application_http1.c", "__rrr_http_application_http1_receive_get_target_size"]]}
{"id": "C76", "title": "Bodies made of chunks are put together", "statement": "A message with a body made of chunks is complete precisely when the octets of the last chunk have arrived, however they arrive; the body given to the user is what is inside the chunks, in order.  No chunk sent by the other side makes the program loop for ever or read outside of what was received.", "quantifier": "all lists of chunks with all notations of their sizes, all splits into arrivals", "why_tests_cant": "chunk headers may be split at every octet and sizes go up to 2^64", "anchors": [["src/lib/http/http_part_parse.c", "__rrr_http_part_parse_chunk"], ["src/lib/http/http_part.c", "rrr_http_part_chunks_iterate"], ["src/lib/http/http_part.c", "rrr_http_part_chunks_merge"]]}
{"id": "C77", "title": "The end of an HTTP message is where the standard says", "statement": "The end of a message is found by the rules of RFC 7230: messages the length of which is unclear are refused, responses without length last until the connection closes and their body is delivered, responses which have no body by their code end with the header, correct fields are accepted, and no header makes the program abort.", "quantifier": "all headers and bodies", "why_tests_cant": "the rules depend on combinations of fields which no finite set of messages covers", "anchors": [["src/lib/http/http_part_parse.c", "rrr_http_part_parse"], ["src/lib/http/http_header_fields.c", "rrr_http_header_field_parse_name_and_value"], ["src/lib/http/http_part.c", "rrr_http_part_chunks_iterate"]]}
{"id": "C78", "title": "MQTT packets which are written are read as they were", "statement": "Every packet a client or broker sends has the octets the MQTT standard gives, and a connection receiving packets in these octets (or in the abbreviated forms of version 5) hands on exactly these packets, each once and in order, in whatever pieces the octets arrive; if the last packets have not arrived in full, exactly those which have are handed on.", "quantifier": "all packets of all types in versions 3.1, 3.1.1 and 5 with all properties, strings and payloads; all sequences of packets; all splits into arrivals", "why_tests_cant": "a packet may be split at every octet and its fields combine without bound; the parser resumes from saved positions", "anchors": [["src/lib/mqtt/mqtt_parse.c", "rrr_mqtt_packet_parse"], ["src/lib/mqtt/mqtt_assemble.c", "rrr_mqtt_assemble_publish"], ["src/lib/mqtt/mqtt_connection.c", "__rrr_mqtt_conn_read_complete_callback"]]}
{"id": "C79", "title": "An MQTT connection survives every input", "statement": "Whatever octets arrive on a connection, in whatever pieces, the program does not abort; the packets handed on are those into which the lengths divide the octets, in order, and what is not a packet closes the connection; the outcome does not depend on how the octets are split.", "quantifier": "all lists of octets and all splits into arrivals", "why_tests_cant": "the input is chosen by the other side", "anchors": [["src/lib/mqtt/mqtt_parse.c", "rrr_mqtt_packet_parse"], ["src/lib/mqtt/mqtt_subscription.c", "rrr_mqtt_subscription_new"], ["src/lib/mqtt/mqtt_connection.c", "__rrr_mqtt_conn_read_get_target_size"]]}
{"id": "C80", "title": "Subscriptions follow the requests", "statement": "At any time the filters a client is subscribed to are those whose last request (SUBSCRIBE, UNSUBSCRIBE or a session starting over) was a granted subscription: an UNSUBSCRIBE is answered accordingly for each filter, a SUBSCRIBE is granted as asked, and no sequence of packets, disconnections and timer events makes the broker abort.", "quantifier": "all sequences of CONNECT, SUBSCRIBE, UNSUBSCRIBE, PUBLISH, disconnections and maintenance of any number of clients", "why_tests_cant": "the state depends on the whole history of all clients", "anchors": [["src/lib/mqtt/mqtt_subscription.c", "rrr_mqtt_subscription_collection_append_unique_copy_from_collection"], ["src/lib/mqtt/mqtt_session_ram.c", "__rrr_mqtt_session_ram_receive_packet"], ["src/lib/mqtt/mqtt_broker.c", "__rrr_mqtt_broker_handle_subscribe"]]}
{"id": "C81", "title": "A published message goes to exactly those who subscribed", "statement": "After any history a message published to the broker is queued for each client once for each of its subscriptions which matches the topic, with the lower one of the two QoS levels, in the order of publication, unless it is larger than the client allows; and for nobody else.", "quantifier": "all histories of the broker, all topics, filters and messages", "why_tests_cant": "histories and combinations of filters are unbounded", "anchors": [["src/lib/mqtt/mqtt_session_ram.c", "__rrr_mqtt_session_ram_receive_forwarded_publish"], ["src/lib/mqtt/mqtt_subscription.c", "rrr_mqtt_subscription_collection_match_publish_with_callback"]]}
{"id": "C82", "title": "New subscribers get the last retained messages", "statement": "A client which subscribes is sent, marked as retained, the last retained message of each topic matching the filters, once for each filter; messages with an empty payload delete the one retained before, expired messages are not sent, and the options of the subscription and the maximum packet size are respected.", "quantifier": "all histories of the broker and all subscriptions", "why_tests_cant": "the messages retained depend on the whole history", "anchors": [["src/lib/mqtt/mqtt_session_ram.c", "__rrr_mqtt_session_ram_retain_buffer_write_callback"], ["src/lib/mqtt/mqtt_session_ram.c", "__rrr_mqtt_session_collection_ram_iterate_retain"]]}
{"id": "C83", "title": "Sessions outlive connections and wills are published", "statement": "A session is kept with its subscriptions and queued messages until its expiry interval has passed after the disconnection and is discarded by a clean start; the will of a client is published, after its delay, when the client is gone without saying goodbye, and only then.", "quantifier": "all histories of the broker, all disconnect reasons, intervals, delays and times", "why_tests_cant": "it depends on the order of disconnections, connections, messages and timer events", "anchors": [["src/lib/mqtt/mqtt_session_ram.c", "__rrr_mqtt_session_collection_ram_maintain_expire"], ["src/lib/mqtt/mqtt_session_ram.c", "__rrr_mqtt_session_ram_notify_disconnect"], ["src/lib/mqtt/mqtt_session_ram.c", "__rrr_mqtt_session_ram_will_publish_notify_disconnect"]]}
{"id": "C84", "title": "Incoming messages of QoS 1 and QoS 2 are delivered and answered as the handshakes say", "statement": "For a remote which follows the handshakes, with any repetitions: a message of QoS 0 or QoS 1 is delivered when it comes and one of QoS 1 answered with PUBACK, a message of QoS 2 is answered with PUBREC and delivered when it is released for the first time, each release is answered with PUBCOMP, and the connection is not closed for any of them; whatever packets come, the program does not abort.", "quantifier": "all sequences of packets, local requests, rounds of sending and times", "why_tests_cant": "what a packet does depends on the whole history of its identifier and on when the queues were tidied", "anchors": [["src/lib/mqtt/mqtt_session_ram.c", "__rrr_mqtt_session_ram_process_ack_callback"], ["src/lib/mqtt/mqtt_session_ram.c", "__rrr_mqtt_session_ram_receive_publish"], ["src/lib/mqtt/mqtt_common.c", "rrr_mqtt_common_handle_publish"]]}
{"id": "C85", "title": "Outgoing messages are kept until acknowledged, with identifiers of their own", "statement": "No two messages or requests waiting for acknowledgement have the same identifier; a message of QoS 1 or QoS 2 stays queued with its identifier until its last acknowledgement comes; only queued messages are sent, those of QoS 2 not again after PUBREC; as many are in flight as the remote allows, and expired messages are removed.", "quantifier": "all sequences of requests, packets, rounds of sending (with connections which fail or are full) and times", "why_tests_cant": "it depends on the interleaving of requests, acknowledgements, retries and identifiers in use", "anchors": [["src/lib/mqtt/mqtt_session_ram.c", "__rrr_mqtt_session_ram_iterate_send_queue"], ["src/lib/mqtt/mqtt_session_ram.c", "__rrr_mqtt_session_ram_process_iterate_ack"], ["src/lib/mqtt/mqtt_session_ram.c", "__rrr_mqtt_session_ram_iterate_send_queue_callback_process_publish"]]}
{"id": "C86", "title": "Between two sessions QoS 2 delivers exactly once and QoS 1 at least once", "statement": "When both sides are sessions of this program, and packets and connections are lost in any way: a message of QoS 2 is delivered at most once, and exactly once when the sender has removed it; a message of QoS 1 has been delivered when the sender has removed it; a message of QoS 0 is delivered at most once; nothing else is delivered and neither side aborts.", "quantifier": "all histories of the two sessions and the packets between them: any order, any losses, any number of messages", "why_tests_cant": "it is about all interleavings of both sides, retries and losses", "anchors": [["src/lib/mqtt/mqtt_session_ram.c", "__rrr_mqtt_session_ram_process_ack_callback"], ["src/lib/mqtt/mqtt_session_ram.c", "__rrr_mqtt_session_ram_iterate_send_queue"], ["src/lib/mqtt/mqtt_common.c", "rrr_mqtt_common_handle_pubrec"]]}
{"id": "C87", "title": "A send loop neither loses nor doubles messages", "statement": "Every message given to a send loop is, at any time, in exactly one place: waiting, handed to the module and being sent, done, or gone because it expired, timed out or was refused; a run which meets no refusal leaves nothing waiting.", "quantifier": "all histories of messages, runs with all answers of the module, failures, timeouts and times", "why_tests_cant": "it depends on the interleaving of runs, answers and messages coming back", "anchors": [["src/lib/send_loop.c", "rrr_send_loop_run"], ["src/lib/send_loop.c", "rrr_send_loop_push"], ["src/lib/send_loop.c", "rrr_send_loop_unshift"]]}
{"id": "C88", "title": "Messages in a send loop expire and time out when they are due", "statement": "A message is handed to the module only while it is not older than the time to live and has not waited longer than the timeout, is dropped for its age only when it is older, and is dropped or returned for the timeout only when it has waited longer, as configured.", "quantifier": "all histories, all times, timestamps, times to live and timeouts", "why_tests_cant": "boundaries of the 64 bit arithmetic and the states a message has been through", "anchors": [["src/lib/message_holder/message_holder_util.c", "rrr_msg_holder_util_timeout_check"], ["src/lib/messages/msg_msg.c", "rrr_msg_msg_ttl_ok"], ["src/modules/p_ip.c", "ip_push_message"]]}
{"id": "C89", "title": "A send loop which preserves order hands over messages in the order they came", "statement": "With the order preserved, no message which stays waiting came before one handed to the module, and the messages handed over are in the order they came, as long as none of them comes back.", "quantifier": "all histories of messages and runs with all answers of the module", "why_tests_cant": "it is about the positions of all messages over all runs", "anchors": [["src/lib/send_loop.c", "rrr_send_loop_run"], ["src/lib/message_holder/message_holder_collection.c", "rrr_msg_holder_collection_sort"]]}
{"id": "C90", "title": "Data is read as an array definition says", "statement": "A definition applied to data gives exactly the values the definition asks for: each value from the octets behind the ones before it, sizes and counts taken from earlier values, branches taken as the conditions say, REWIND going back that many values; the octets used are those of the values, and refusal means that no such reading exists.", "quantifier": "all array definitions with any nesting of branches and rewinds, all data", "why_tests_cant": "sizes, counts and branches depend on the data and nest without bound", "anchors": [["src/lib/array_tree.c", "rrr_array_tree_import_from_buffer"], ["src/lib/array_tree.c", "__rrr_array_tree_import_value_callback"], ["src/lib/array_tree.c", "__rrr_array_tree_import_rewind_callback"]]}
{"id": "C91", "title": "No data can make an array definition fail otherwise than with an error", "statement": "For any data, reading by an array definition ends with the values, with an error or with the answer that more octets are needed; it never uses octets outside the data and never aborts the program.", "quantifier": "all array definitions, all octet strings", "why_tests_cant": "the data controls sizes, counts and branches; the harmful values are few among many", "anchors": [["src/lib/array_tree.c", "rrr_array_tree_import_from_buffer"], ["src/lib/array_tree.c", "__rrr_array_tree_import_value_resolve_ref"], ["src/lib/type.c", "rrr_type_import_le"]]}
{"id": "C92", "title": "More data does not change what has been read by an array definition", "statement": "When reading by an array definition has ended with values or an error, it ends in the same way with any more octets behind the data, so that the outcome does not depend on how much has arrived.", "quantifier": "all array definitions, all data and all continuations of it", "why_tests_cant": "it compares all pairs of data and continuation", "anchors": [["src/lib/array_tree.c", "rrr_array_tree_import_from_buffer"]]}
{"id": "C93", "title": "Any text is a valid array definition or is refused", "statement": "Reading any text as an array definition ends with a definition or an error, without using octets outside the text; the types, sizes, counts, names and conditions of accepted definitions are within their limits.", "quantifier": "all texts, with or without a terminating zero", "why_tests_cant": "the parser has many nested states and the text is arbitrary", "anchors": [["src/lib/array_tree.c", "rrr_array_tree_interpret_raw"], ["src/lib/array_tree.c", "__rrr_array_tree_interpret_identifier_and_size"], ["src/lib/array_tree.c", "__rrr_array_tree_interpret_node"]]}
{"id": "C94", "title": "Array definitions written as the manual says are understood", "statement": "Every way of writing a definition which the manual allows, with blanks, commas and empty blocks, is accepted and makes the same definition: the values in order, the rewinds, and branches with conditions which have the value of the expression written.", "quantifier": "all definitions and all layouts of them", "why_tests_cant": "it ranges over all definitions and all choices of blanks and commas", "anchors": [["src/lib/array_tree.c", "rrr_array_tree_interpret_raw"], ["src/lib/array_tree.c", "rrr_array_tree_interpret"], ["src/lib/array_tree.c", "__rrr_array_tree_interpret_single_definition"]]}
{"id": "C95", "title": "The message database answers as a map from topics to messages", "statement": "With a database directory given by an absolute path, every request to the message database server is answered as by a map from topics to messages: PUT and DEL with a topic are acknowledged, GET gives the message last put for the topic or a negative answer when there is none. The map is kept when the server is stopped and started again, also with another number of directory levels.", "quantifier": "all sequences of runs of the server in one directory, all directory levels, all requests, all points at which a run is ended or killed", "why_tests_cant": "it ranges over all request histories, restarts and reorganisations of directories, with crashes in each", "anchors": [["src/lib/msgdb/msgdb_server.c", "__rrr_msgdb_server_put"], ["src/lib/msgdb/msgdb_server.c", "__rrr_msgdb_server_get"], ["src/lib/msgdb/msgdb_server.c", "__rrr_msgdb_server_del"], ["src/lib/msgdb/msgdb_server.c", "__rrr_msgdb_server_restructure"], ["src/lib/msgdb/msgdb_server.c", "rrr_msgdb_server_new"]]}
{"id": "C96", "title": "A killed message database server damages at most the topic of the request it works on", "statement": "When the message database server is killed at any system call while it starts or works on a request, then after the next start all other topics have what they had, and the topic of the request has its old message, its new one, or none; a message which is partly written is never given out. (That an old message is never lost is refuted.)", "quantifier": "all histories before, all requests, all crash points, all later histories", "why_tests_cant": "it ranges over all crash points in all histories", "anchors": [["src/lib/msgdb/msgdb_server.c", "__rrr_msgdb_server_put"], ["src/lib/msgdb/msgdb_server.c", "__rrr_msgdb_server_open_and_read_file"], ["src/lib/msgdb/msgdb_server.c", "__rrr_msgdb_server_restructure_callback"]]}
{"id": "C97", "title": "TIDY removes and IDX sends the messages older than requested, each once", "statement": "TIDY removes exactly the messages whose timestamp is older than the given age and changes nothing else; IDX sends exactly those messages, each once, and changes nothing. Both are acknowledged at the end.", "quantifier": "all contents of the database, ages, times, and divisions into time slices; all crash points", "why_tests_cant": "it ranges over all contents and all times at which the iteration is interrupted", "anchors": [["src/lib/msgdb/msgdb_server.c", "__rrr_msgdb_client_event_iteration"], ["src/lib/msgdb/msgdb_server.c", "__rrr_msgdb_server_idx_make_directory_index_recurse"], ["src/lib/messages/msg_msg.c", "rrr_msg_msg_ttl_ok"]]}
{"id": "C98", "title": "Every reader gets every message of a sender once and in order", "statement": "When an instance duplicates its messages to its readers, or has one reader only, every reader gets the messages in the order they were written, each once, whatever the instances do at the same time; there is no abort and no use of freed memory. (That this holds for several readers without duplicate, who share the messages, is refuted.)", "quantifier": "all networks of instances, all messages, all interleavings of writing, notifying, filling of buffers and polling, with memory available and modules which report no errors", "why_tests_cant": "it ranges over all thread schedules, with locks taken and released in between", "anchors": [["src/lib/message_broker.c", "rrr_message_broker_poll_delete"], ["src/lib/message_broker.c", "__rrr_message_broker_split_buffers_fill"], ["src/lib/message_broker.c", "__rrr_message_broker_get_source_buffer"], ["src/lib/fifo_protected.c", "rrr_fifo_protected_read_clear_forward"], ["src/lib/fifo_protected.c", "rrr_fifo_protected_write"]]}
{"id": "C99", "title": "No message is left lying without its reader being told", "statement": "A reader always has exactly as many notifications, arrived or on the way, as there are messages for it which it has not read: once it has none it has got everything. The instances never block each other for good, and a poll which is not disturbed reads at least one message. (For several readers without duplicate this is refuted.)", "quantifier": "all networks of instances, all interleavings, all amounts of notifications used in a poll", "why_tests_cant": "lost wake-ups show only in rare schedules", "anchors": [["src/lib/message_broker.c", "__rrr_message_broker_write_notifications_send"], ["src/lib/message_broker.c", "rrr_message_broker_poll_delete"], ["src/lib/event/event.c", "__rrr_event_signal_event"]]}
{"id": "C100", "title": "With backstop set, an instance is not given its own messages", "statement": "Messages which an instance has made, and which come back to it through other instances which forward them, are not given to its module; all other messages it reads are. (With duplicate set in an instance between, this is refuted.)", "quantifier": "all networks of instances, all forwarding, all interleavings", "why_tests_cant": "it ranges over all ways through the network and all schedules", "anchors": [["src/lib/message_broker.c", "__rrr_message_broker_poll_intermediate_backstop_handling"], ["src/lib/message_holder/message_holder_util.c", "rrr_msg_holder_util_clone_no_locking"]]}
{"id": "C101", "title": "SHA-256 digests are those of the standard", "statement": "For every data, given in any parts, the digest calculated is the one FIPS 180-4 defines, and nothing is written outside of the buffers.", "quantifier": "all messages below 2^61 octets, all divisions into parts, all contents of uninitialised memory", "why_tests_cant": "tests compare some digests; lengths near the block boundaries in all divisions can't be enumerated", "anchors": [["src/lib/util/sha256.c", "rrr_sha256_calculate"], ["src/lib/util/sha256.c", "sha_256_write"], ["src/lib/util/sha256.c", "sha_256_close"], ["src/lib/util/sha256.c", "consume_chunk"]]}
{"id": "C102", "title": "SHA-1 digests are those of the standard, or a failure is told", "statement": "After a reset, for every history of inputs and results, each result is the digest FIPS 180-4 defines of all data given, or a failure when data came after a result or was too long; nothing is written outside of the block.", "quantifier": "all histories of calls, all data, all contents of uninitialised memory", "why_tests_cant": "it ranges over all histories of calls and all lengths", "anchors": [["src/lib/sha1/sha1.c", "rrr_SHA1Input"], ["src/lib/sha1/sha1.c", "rrr_SHA1Result"], ["src/lib/sha1/sha1.c", "rrr_SHA1PadMessage"], ["src/lib/sha1/sha1.c", "rrr_SHA1ProcessMessageBlock"]]}
{"id": "C103", "title": "WebSocket handshakes give and take exactly the accept value of RFC 6455", "statement": "A server answers every key with the value of Sec-WebSocket-Accept that RFC 6455 prescribes; a client takes a reply if and only if it has the value prescribed for the key it sent; so a client and a server of this library agree on every key.", "quantifier": "all keys, all values in replies", "why_tests_cant": "it ranges over all keys and all replies", "anchors": [["src/lib/http/http_application_http1.c", "__rrr_http_application_http1_websocket_make_accept_string"], ["src/lib/http/http_application_http1.c", "__rrr_http_application_http1_response_receive_callback"]]}
{"id": "C104", "title": "Authentication lets in exactly those the password file says", "statement": "A user is let in if and only if the first line for the user in the password file, after well-formed lines for other users, is well formed, its hash is one of the password given, and the permission asked for is in its list.", "quantifier": "all files without zero octets, users, passwords and permissions", "why_tests_cant": "it ranges over all files and all passwords", "anchors": [["src/lib/passwd.c", "rrr_passwd_authenticate"], ["src/lib/passwd.c", "rrr_passwd_iterate_lines"], ["src/lib/passwd.c", "rrr_passwd_check"]]}
{"id": "C105", "title": "Hashes of passwords are taken for exactly the passwords with the same key", "statement": "The hash made for a password and a salt is accepted for a password if and only if the key derived from it with the salt is the same; making and checking hashes never aborts the program.  Without the TLS library the password itself is compared.", "quantifier": "all passwords, all salts, all key derivations giving 256 octets", "why_tests_cant": "it ranges over all passwords and salts", "anchors": [["src/lib/passwd.c", "rrr_passwd_encrypt"], ["src/lib/passwd.c", "rrr_passwd_check"], ["src/rrr_passwd.c", "main"]]}
{"id": "C106", "title": "The password program keeps a map from users to accounts", "statement": "After any sequence of uses of the program from no file, each use has ended with success exactly when the request makes sense for the accounts at that time, and users are let in exactly by the password and permissions given last; accounts of others do not change.  A malformed file is left as it is.", "quantifier": "all sequences of commands, salts and passwords typed, with names of users and permissions which can be written, up to 32 permissions to a user", "why_tests_cant": "it ranges over all histories of commands", "anchors": [["src/rrr_passwd.c", "main"], ["src/rrr_passwd.c", "__rrr_passwd_process"], ["src/rrr_passwd.c", "__rrr_passwd_write_user"], ["src/rrr_passwd.c", "__rrr_passwd_process_line_callback"]]}
{"id": "C107", "title": "Accounts survive when the password program is stopped", "statement": "At whatever system call the program is stopped, the password file is as it was before or as after the use, or it is missing and what was in it is in the file with .old after its name.", "quantifier": "all files, all commands, all points at which the program is stopped", "why_tests_cant": "it ranges over all crash points and all files", "anchors": [["src/rrr_passwd.c", "main"]]}
{"id": "C108", "title": "An access list file means what it states", "statement": "Every access list file is read to its end or refused without reading outside it; it is taken exactly when it is a sequence of statements which form blocks of a legal topic filter, at most one default and any users, and the broker then allows each publish and each subscription exactly as the last stated rule whose filter applies says for the user.", "quantifier": "all files without zero octets of at most 2^32-1 octets, all topics, filters and users", "why_tests_cant": "it ranges over all files and all requests", "anchors": [["src/lib/mqtt/mqtt_acl.c", "rrr_mqtt_acl_entry_collection_populate_from_file"], ["src/lib/mqtt/mqtt_acl.c", "__rrr_mqtt_acl_parse_topic_blocks"], ["src/lib/mqtt/mqtt_acl.c", "__rrr_mqtt_acl_parse_topic_block_body"], ["src/lib/mqtt/mqtt_acl.c", "__rrr_mqtt_acl_parse_keyword_user"]]}
{"id": "C109", "title": "Modbus requests are sent once, in order and as the protocol says", "statement": "What the Modbus client has given to be sent is the requests it has taken, each once and in the order they were made, each as the protocol says it is written, numbered in sequence modulo 65536; a request is refused only when 32 earlier ones are not done with.", "quantifier": "all sequences of legal requests, of times and of octets received", "why_tests_cant": "it ranges over all histories, also those in which numbers wrap around", "anchors": [["src/lib/modbus/rrr_modbus.c", "rrr_modbus_client_write"], ["src/lib/modbus/rrr_modbus.c", "__rrr_modbus_client_transaction_reserve"], ["src/lib/modbus/rrr_modbus.c", "rrr_modbus_client_req_16_write_multiple_registers"]]}
{"id": "C110", "title": "Modbus answers reach the request they belong to, at most once", "statement": "Whatever octets arrive, the Modbus client hands over an answer only for a request which has been sent and is not done with, with the function, number and pointer of that request, and never two for a request; a well-formed answer to such a request is always handed over, with exactly the values in it; nothing is read outside the octets and no assertion fails.", "quantifier": "all sequences of legal requests, of times and of octets received", "why_tests_cant": "it ranges over all octets of the other side and all orders of answers", "anchors": [["src/lib/modbus/rrr_modbus.c", "rrr_modbus_client_read"], ["src/lib/modbus/rrr_modbus.c", "__rrr_modbus_client_receive"], ["src/lib/modbus/rrr_modbus.c", "__rrr_modbus_client_transaction_find_and_consume"]]}
{"id": "C111", "title": "Data queued for a socket is sent whole, in order and once", "statement": "Whatever part of it the system takes at a time, data queued for a socket by a socket client reaches the other side in the order it was queued, without an octet lost, repeated or put elsewhere; its success callback is called once, when all of it has been taken, in that order, and its memory is given back once.", "quantifier": "all sequences of data queued and of answers of the system when sending, errors ending the use of the socket", "why_tests_cant": "it ranges over all ways in which the system may split the data", "anchors": [["src/lib/socket/rrr_socket_send_chunk.c", "__rrr_socket_send_chunk_collection_send"], ["src/lib/socket/rrr_socket_send_chunk.c", "__rrr_socket_send_chunk_collection_push"], ["src/lib/socket/rrr_socket.c", "rrr_socket_sendto_nonblock_with_options"]]}
{"id": "C112", "title": "Data queued for a network connection is sent whole, in order and once", "statement": "Whatever part of it the transport takes at a time, data queued for a network connection reaches the other side without an octet lost or repeated, each piece whole and not interrupted by another, data of equal urgency in the order it was queued; its memory is given back once, when all of it has been taken or the connection ends; and an error of the transport is reported.", "quantifier": "all sequences of data queued, urgent or not, and of results of the transport", "why_tests_cant": "it ranges over all ways in which the transport may split the data", "anchors": [["src/lib/socket/rrr_socket_send_chunk.c", "rrr_socket_send_chunk_collection_send_with_callback"], ["src/lib/net_transport/net_transport.c", "__rrr_net_transport_event_write"], ["src/lib/net_transport/net_transport_ctx.c", "rrr_net_transport_ctx_send_push_urgent"]]}
{"id": "C113", "title": "Conversions of values do what is documented", "statement": "Numbers are converted to their decimal texts, several numbers each with leading spaces to 20 places; texts are converted to numbers exactly when all are decimal numbers after optional spaces, and numbers written as text are read back as the same numbers; hexadecimal text is double the size and stands for exactly the data; numbers are converted to characters exactly when they are octets; zero and empty texts and nothing else become vain; other conversions change only the type; what is not possible is reported as such.", "quantifier": "all values of all types, with any number of elements, and all combinations of the settings for strictness", "why_tests_cant": "it ranges over all numbers and texts and numbers of elements", "anchors": [["src/lib/type_conversion.c", "__rrr_type_convert_h2str"], ["src/lib/type_conversion.c", "__rrr_type_convert_str2h"], ["src/lib/type_conversion.c", "__rrr_type_convert_blob2hex"], ["src/lib/type_conversion.c", "__rrr_type_convert_hchar2str"], ["src/lib/util/hex.c", "rrr_hex_bin_to_hex"]]}
{"id": "C114", "title": "A recipe of conversions applies each conversion which is possible", "statement": "The conversions of a recipe are applied in order, each to what the one before has made; one which is not possible is skipped and the others still apply; whatever values arrive and whatever the recipe, nothing is read or written outside memory and no assertion fails.", "quantifier": "all recipes, all values and all combinations of the settings for strictness", "why_tests_cant": "it ranges over all sequences of conversions and all values", "anchors": [["src/lib/type_conversion.c", "rrr_type_convert_using_list"], ["src/modules/p_mangler.c", "mangler_process_value"]]}
{"id": "C115", "title": "Averages tell about exactly the measurements of the timespan", "statement": "Each time the interval of the averager has passed it makes one message with the average, the maximum, the minimum and the first and last times of the measurements received in the timespan, and none if there are none; messages which are not measurements are passed on unchanged unless they are to be dropped, and measurements are passed on with their data if wanted; no message ends the module.", "quantifier": "all sequences of messages and of times, all numbers of measurements and all their values", "why_tests_cant": "it ranges over all measurements and all times at which they arrive", "anchors": [["src/modules/p_averager.c", "averager_calculate_average"], ["src/modules/p_averager.c", "averager_process_message"], ["src/modules/p_averager.c", "averager_maintain_buffer"], ["src/modules/p_averager.c", "averager_poll_callback"]]}
{"id": "C116", "title": "The viewer of statistics has the last message of each path until it is old", "statement": "For any sequence of messages and removals of old ones, the tree has for each path the last message given with it, as long as nothing older than it has been removed; a path for which nothing has been received since the given time, neither for it nor below it, is not there after removal; a message is only found at its own path; a leaf is found by its name if it is there; each path with a level is taken, and a message which is refused changes nothing.", "quantifier": "all sequences of messages, of paths of all lengths and depths, and of removals", "why_tests_cant": "it ranges over all histories of a tree of any depth", "anchors": [["src/lib/stats/stats_tree.c", "rrr_stats_tree_insert_or_update"], ["src/lib/stats/stats_tree.c", "rrr_stats_tree_purge_old_branches"], ["src/lib/stats/stats_tree.c", "rrr_stats_tree_has_leaf"], ["src/lib/stats/stats_tree.c", "__rrr_stats_get_first_path_level"]]}
{"id": "C117", "title": "Arguments of programs are read as they were written", "statement": "For any rules of a program, arguments written as options by name or letter, with values after an equals sign or as the next argument, as several letters together, as words, or as words after two dashes, are read as exactly these options with these values in this order, and anything else is refused; values between commas are separated as they were written; asking for a value gives the one written for this option at this place; the check for unused arguments tells when some were not used.", "quantifier": "all rules, all lists of arguments of all lengths, all values", "why_tests_cant": "it ranges over all rules and all arguments", "anchors": [["src/lib/cmdlineparser/cmdline.c", "cmd_parse"], ["src/lib/cmdlineparser/cmdline.c", "cmd_get_subvalue"], ["src/lib/cmdlineparser/cmdline.c", "__cmd_pair_split_comma"], ["src/lib/cmdlineparser/cmdline.c", "cmd_check_all_args_used"]]}
{"id": "C118", "title": "Each value of a message becomes a message of its own", "statement": "The exploder makes from each message with values one message for each value, with just this value and its tag, in the order of the values, all with the same time, which is that of the message if wanted, and with a topic of the topic of the message, the configured topic and the tag, each if wanted; the message itself follows only if wanted, messages without values pass unchanged only if wanted, and no message ends the module.", "quantifier": "all messages, all numbers of values, all configurations", "why_tests_cant": "it ranges over all messages and configurations", "anchors": [["src/modules/p_exploder.c", "exploder_process_value"], ["src/modules/p_exploder.c", "exploder_poll_callback"]]}
