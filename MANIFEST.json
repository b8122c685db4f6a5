{
 "claims": [
  {
   "property": "C01",
   "status": "proved",
   "theorems": [
    "c01_uvarint_round_trip"
   ],
   "note": ""
  },
  {
   "property": "C02",
   "status": "partial",
   "theorems": [
    "c02_read_uvarint_partial",
    "c02_read_uvarint_panic_refuted",
    "c02_read_uvarint_release"
   ],
   "note": "REFUTED of the code built with overflow checks: eleven continuation bytes panic. Everything else in the statement is proved (_partial), and the full statement is proved for a build without overflow checks (_release)."
  },
  {
   "property": "C03",
   "status": "proved",
   "theorems": [
    "c03_scalar_round_trip",
    "c03_scalar_injective"
   ],
   "note": ""
  },
  {
   "property": "C04",
   "status": "proved",
   "theorems": [
    "c04_string_round_trip",
    "c04_text_is_utf8",
    "c04_huge_length_refuted"
   ],
   "note": "Proved for strings of at most isize::MAX bytes (no larger string can exist). c04_huge_length_refuted is an extra finding: a length prefix above isize::MAX panics."
  },
  {
   "property": "C21",
   "status": "proved",
   "theorems": [
    "c21_concat",
    "c21_beyond_the_end",
    "c21_mixed_types"
   ],
   "note": ""
  },
  {
   "property": "C40",
   "status": "partial",
   "theorems": [
    "c40_date_partial",
    "c40_exact",
    "c40_out_of_range_refuted"
   ],
   "note": "REFUTED of the code: dates outside 1970-01-01..2149-06-06 are silently turned into other dates. The storing and reading back of every date inside the range is proved (_partial)."
  },
  {
   "property": "C42",
   "status": "partial",
   "theorems": [
    "c42_datetime64_partial",
    "c42_datetime64_refuted",
    "c42_store_since_1970"
   ],
   "note": "REFUTED of the code: reading a fractional time before 1970, a time outside the years an i64 of nanoseconds covers, or a precision above 9 panics. All other cells are proved to convert exactly and back."
  },
  {
   "property": "C43",
   "status": "partial",
   "theorems": [
    "c43_decimal_text_partial",
    "c43_negative_exact",
    "c43_negative_fraction_refuted"
   ],
   "note": "REFUTED of the code: negative numbers between -1 and 0 print as malformed text. All others are proved, and exactly what those print as."
  },
  {
   "property": "C44",
   "status": "partial",
   "theorems": [
    "c44_decimal_equality_partial",
    "c44_symmetric",
    "c44_comparison_panic_refuted"
   ],
   "note": "REFUTED of the code: comparing decimals of different scales can overflow and panic. Whenever the comparison returns, it is proved to be numeric equality, and the overflow is proved to be the only failure."
  },
  {
   "property": "C45",
   "status": "partial",
   "theorems": [
    "c45_rescale",
    "c45_store_partial",
    "c45_store_exact",
    "c45_store_refuted"
   ],
   "note": "REFUTED of the code for storing: a 32-bit column silently drops high digits, and a decimal of another scale is stored with its mantissa unchanged. The rescaling part is proved in full (c45_rescale), and storing is proved when scale and width fit."
  },
  {
   "property": "C50",
   "status": "partial",
   "theorems": [
    "c50_decimal_of_partial",
    "c50_exact",
    "c50_narrow_source_refuted"
   ],
   "note": "REFUTED of the code: the power of ten is cut to the source's own type. Proved when it fits and the result fits an i64; c50_exact gives every other case too."
  },
  {
   "property": "C51",
   "status": "partial",
   "theorems": [
    "c51_same_scale_partial",
    "c51_exact",
    "c51_equal_but_hash_differs_refuted"
   ],
   "note": "REFUTED of the code: equal decimals of different scales hash differently."
  },
  {
   "property": "C52",
   "status": "partial",
   "theorems": [
    "c52_datetime_partial",
    "c52_exact",
    "c52_out_of_range_refuted"
   ],
   "note": "REFUTED of the code: times outside 1970..2106 wrap silently. Storing and reading back inside the range is proved."
  },
  {
   "property": "C17",
   "status": "proved",
   "theorems": [
    "c17_array_columns",
    "c17_any_element",
    "append_then_read"
   ],
   "note": "c17_any_element is relative to the element column and holds for every element column; c17_array_columns instantiates it for all element types the library can build."
  },
  {
   "property": "C19",
   "status": "partial",
   "theorems": [
    "c19_low_cardinality_partial",
    "c19_nullable_refuted"
   ],
   "note": "REFUTED of the code for nullable inner types and for chrono times: appending panics. Proved for integers, strings, fixed strings, dates and times in the column's zone."
  },
  {
   "property": "C20",
   "status": "proved",
   "theorems": [
    "c20_fixed_strings"
   ],
   "note": ""
  },
  {
   "property": "C16",
   "status": "proved",
   "theorems": [
    "c16_strings",
    "c16_puts_succeed",
    "c16_loaded",
    "c16_column"
   ],
   "note": ""
  },
  {
   "property": "C14",
   "status": "partial",
   "theorems": [
    "c14_names_partial",
    "c14_aggregate_refuted",
    "c14_labels_refuted"
   ],
   "note": "REFUTED of the code: SimpleAggregateFunction over FixedString(16) is read back over FixedString(1); enum labels with quotes or backslashes, empty enums and map keys whose name has a comma or a non-ASCII label are not read back. Proved for all other types, any nesting."
  },
  {
   "property": "C15",
   "status": "partial",
   "theorems": [
    "c15_names_partial",
    "c15_odd_refuted",
    "c15_key_refuted",
    "c15_ascii_partial",
    "c15_panics_refuted"
   ],
   "note": "REFUTED of the code: every name that starts with one of four keywords and does not go on with one-byte characters first and last panics, and so do LowCardinality names with other characters around the parentheses (c15_odd_refuted, all such names), and maps whose key is not ASCII. Proved for all other names, with all the names nested in them, over UTF-8, the only names that are let through: loaded or refused, no index panic."
  },
  {
   "property": "C18",
   "status": "partial",
   "theorems": [
    "c18_nullable_columns",
    "c18_over_the_wire_partial",
    "append_then_read",
    "append_send_receive",
    "append_convert_send_receive",
    "c18_times",
    "c18_ticks_refuted",
    "c18_nulls",
    "c18_no_blank_refuted"
   ],
   "note": "REFUTED of the code: columns of values that are DateTime64 already cannot be written; a NULL panics in DateTime64 of more than nine digits and in dictionaries of what cannot be hashed. A NULL can be appended to a column of every other type (c18_nulls). Appending and reading is proved for all inner types (c18_nullable_columns); the round trip over the wire for all inner types without times (c18_over_the_wire_partial), and for times, which are converted to the table's DateTime or DateTime64 first (c18_times; inside arrays and aggregates append_convert_send_receive)."
  },
  {
   "property": "C49",
   "status": "partial",
   "theorems": [
    "c49_map_columns_partial",
    "c49_over_the_wire_partial",
    "c49_other_keys_refuted",
    "c49_times_refuted"
   ],
   "note": "REFUTED of the code: maps keyed by dates, booleans, UUIDs, addresses or enums panic when read, and maps with times as values cannot be sent. Proved for string and integer keys, also over the wire (without times)."
  },
  {
   "property": "C07",
   "status": "proved",
   "theorems": [
    "c07_fields",
    "c07_round_trip",
    "c07_unknown_tag"
   ],
   "note": ""
  },
  {
   "property": "C08",
   "status": "partial",
   "theorems": [
    "c08_blocks_partial",
    "c08_datetime64_refuted"
   ],
   "note": "REFUTED of the code: a DateTime64 column cannot be written at all (unimplemented). Proved for every other column type and nesting whose type name the client understands (C14)."
  },
  {
   "property": "C12",
   "status": "proved",
   "theorems": [
    "c12_pieces"
   ],
   "note": ""
  },
  {
   "property": "C13",
   "status": "partial",
   "theorems": [
    "c13_ranges_partial",
    "c13_arrays_and_maps_refuted"
   ],
   "note": "REFUTED of the code: a range of an array or map column that does not start at row 0 is sent with the offsets of the whole column and the elements from its beginning. Proved for all ranges of columns without arrays and maps, and for ranges starting at row 0 of every column."
  },
  {
   "property": "C22",
   "status": "partial",
   "theorems": [
    "c22_columns_count_their_name",
    "c22_rectangular_partial",
    "c22_ragged_refuted"
   ],
   "note": "REFUTED of the code: rows that leave out a column or bring a new one in the second row are accepted and leave columns of different lengths. Proved: every column has as many rows as its name occurred, for all rows; hence the block is rectangular when every row names the same columns once."
  },
  {
   "property": "C24",
   "status": "partial",
   "theorems": [
    "c24_equal_to_itself_partial",
    "c24_not_equal_to_itself_refuted"
   ],
   "note": "REFUTED of the code: cells that are booleans, addresses or UUIDs are never equal to themselves. Proved for all blocks whose cells are of the other kinds (no NaN)."
  },
  {
   "property": "C25",
   "status": "partial",
   "theorems": [
    "c25_by_name",
    "c25_by_position_partial",
    "c25_out_of_range_refuted"
   ],
   "note": "REFUTED of the code: a position or row out of range panics. Lookup by name is proved in full."
  },
  {
   "property": "C09",
   "status": "proved",
   "theorems": [
    "c09_transparent",
    "c09_errors",
    "c09_block"
   ],
   "note": "LZ4 itself is a parameter: a frame carries data d when its body decompresses to d. The block round trip is that of C08 (same excluded column types) with the premise that LZ4 inverts on the block and sizes are within the protocol's limits."
  },
  {
   "property": "C10",
   "status": "proved",
   "theorems": [
    "c10_data_is_checked",
    "c10_parse_is_checked",
    "c10_corrupt_is_error"
   ],
   "note": "CityHash128 is modelled concretely and checked against the repository's vectors."
  },
  {
   "property": "C11",
   "status": "partial",
   "theorems": [
    "c11_frame_partial",
    "c11_short_frame_refuted",
    "c11_empty_frame_refuted"
   ],
   "note": "REFUTED of the code: a frame announcing less than nine bytes panics (overflow checks on), and a frame carrying no data makes the client wait for ever. Proved: no other panic, and 'more data' is reported only while announced bytes are missing."
  },
  {
   "property": "C05",
   "status": "proved",
   "theorems": [
    "c05_prefix",
    "c05_errors_are_final"
   ],
   "note": "for every revision, time zone and compression setting; the transport's use of it is C26"
  },
  {
   "property": "C06",
   "status": "proved",
   "theorems": [
    "c06_hello",
    "c06_hello_unknown_zone",
    "c06_exception",
    "c06_progress",
    "c06_profile",
    "c06_table_columns",
    "c06_pong_and_end",
    "c06_data",
    "c06_unknown"
   ],
   "note": "layouts are given in SpecPackets.v; any form of a variable-length integer up to ten bytes"
  },
  {
   "property": "C29",
   "status": "partial",
   "theorems": [
    "c29_query_partial",
    "c29_hello",
    "c29_union",
    "c29_query_id_refuted",
    "c29_empty_name_refuted",
    "c29_old_server_refuted"
   ],
   "note": "REFUTED of the code: the query id is not sent in the field a server takes it from, a setting with an empty name ends the settings so that its value is read as the query, and servers before revision 54032 take the client's fields for settings. Proved: from 54032 on, with named settings, exactly one message can be read from the bytes; it has the text, the compression flag and the settings, and an empty data block follows"
  },
  {
   "property": "C26",
   "status": "proved",
   "theorems": [
    "c26_delivery",
    "c26_errors",
    "c26_not_stuck",
    "c26_new"
   ],
   "note": "the socket is the list of what its reads return; for every parse state and revision learnt on the way"
  },
  {
   "property": "C27",
   "status": "partial",
   "theorems": [
    "c27_exact_partial",
    "c27_refuted"
   ],
   "note": "REFUTED of the code: complete messages read in the same poll as the close are dropped (an exception sent before closing is lost). Proved: exactly the messages complete at the last 'not ready' moment before the close are delivered."
  },
  {
   "property": "C28",
   "status": "proved",
   "theorems": [
    "c28_sending",
    "c28_prefix",
    "c28_completes"
   ],
   "note": "a command whose encoding fails is dropped after everything before it was sent (c28_sending)"
  },
  {
   "property": "C30",
   "status": "partial",
   "theorems": [
    "c30_names_partial",
    "c30_nothing_sent",
    "c30_exact",
    "c30_bare_refuted",
    "c30_backslash_refuted"
   ],
   "note": "REFUTED of the code: names of other numeric characters (one half, U+00BD) and the empty name are left bare, and a name ending in a backslash escapes its closing backtick under ClickHouse's lexer. Proved: every name is between backticks and holds none, or is bare and holds only digits and characters beyond ASCII; a backtick is an error and nothing is sent."
  },
  {
   "property": "C31",
   "status": "partial",
   "theorems": [
    "c31_query",
    "c31_exception",
    "c31_fetch_all",
    "c31_execute",
    "c31_exception_refuted",
    "c31_fetch_all_refuted"
   ],
   "note": "REFUTED of the code: after a server exception the connection is lost and, with the check before queries on (the default), every further query on the handle panics; fetch_all panics on a response without columns. Proved: everything else, for every timing of the messages (stream) and for complete responses (fetch_all, execute)."
  },
  {
   "property": "C32",
   "status": "partial",
   "theorems": [
    "c32_dropped",
    "c32_next_partial",
    "c32_refuted",
    "c32_exception_refuted"
   ],
   "note": "REFUTED of the code: with ping_before_query off the next query delivers the abandoned query's rows; an exception of the abandoned query is reported by the next operation. Proved: a dropped stream marks its connection, and then ping, execute, insert, and queries with the check on, behave as on a connection on which the rest of the abandoned query has been read."
  },
  {
   "property": "C33",
   "status": "partial",
   "theorems": [
    "c33_query_partial",
    "c33_ping_partial",
    "c33_execute_refuted",
    "c33_insert_refuted",
    "c33_hello_refuted",
    "c33_clear_refuted"
   ],
   "note": "REFUTED of the code: execute, insert, the handshake and the clearing of an abandoned query panic when the server closes. Proved: queries and pings report an error at every cut."
  },
  {
   "property": "C38",
   "status": "partial",
   "theorems": [
    "c38_partial",
    "c38_exact",
    "c38_ends",
    "c38_refuted"
   ],
   "note": "REFUTED of the code: when reconnecting succeeds but the check fails on the new connection, it is retried without end. Proved: with an unreachable server, the error is reported after send_retries + 1 attempts (none if it is 0); c38_exact gives every case, c38_ends when it ends."
  },
  {
   "property": "C39",
   "status": "partial",
   "theorems": [
    "c39_partial",
    "c39_unreachable_refuted",
    "c39_no_pool_refuted"
   ],
   "note": "REFUTED of the code: after a failed check (or an exception in a query, c31_exception_refuted) every further operation panics; queries on a handle without a pool always panic. Proved: after an execute that failed past its check, further operations report the broken connection or go on with a new one."
  },
  {
   "property": "C53",
   "status": "proved",
   "theorems": [
    "c53_insert",
    "c53_progress_refuted"
   ],
   "note": "c53_progress_refuted is a further finding: a Progress message during an insert makes it fail. What the pieces carry of array and map columns is C13."
  },
  {
   "property": "C34",
   "status": "partial",
   "theorems": [
    "c34_one_thread_partial",
    "c34_threads_partial",
    "c34_refuted",
    "c34_double_refuted"
   ],
   "note": "REFUTED of the code: between taking an idle connection and counting it another thread can open one too many, and two threads can reach twice the maximum. Proved: with at most k threads at a time there are never more than twice the maximum and k; and the maximum itself for all histories in which one thread at a time is inside the pool (single-threaded executors), looked at between any two accesses."
  },
  {
   "property": "C35",
   "status": "partial",
   "theorems": [
    "c35_accounts",
    "c35_given_back",
    "c35_idle_partial",
    "c35_idle_refuted"
   ],
   "note": "REFUTED of the code in its last clause: two threads returning connections at the same time leave more than the minimum idle (with one thread at a time it holds). The accounting is proved for every interleaving."
  },
  {
   "property": "C36",
   "status": "partial",
   "theorems": [
    "c36_queued_partial",
    "c36_woken_partial",
    "c36_something_partial",
    "c36_refuted",
    "c36_cancelled_refuted",
    "c36_interleaved_refuted"
   ],
   "note": "REFUTED of the code: only the task that polled an attempt last is woken by it, so others hang when it fails or when that task was cancelled; and a task that queues its waker after the connection was returned hangs. Proved: wakers are never lost in the queue, a return or loss wakes all waiting tasks, and without failures there is always something outstanding to wait for."
  },
  {
   "property": "C37",
   "status": "partial",
   "theorems": [
    "c37_in_turn_partial",
    "c37_cyclic_partial",
    "c37_wraps_refuted"
   ],
   "note": "Proved for the first 2^64 attempts of a pool; the counter wraps then, and the order breaks unless the number of addresses is a power of two."
  },
  {
   "property": "C23",
   "status": "partial",
   "theorems": [
    "c23_unchanged",
    "c23_stored_type_partial",
    "c23_wrong_is_error_partial",
    "c23_right_succeeds",
    "c23_received",
    "c23_null_refuted",
    "c23_panics_refuted",
    "c23_precision_refuted"
   ],
   "note": "REFUTED of the code for NULLs and empty maps (any Option<T> or HashMap<K,V> accepts them) and for DateTime64 cells before 1970 between seconds (panic). Proved: a value that comes back always says what the cell says; for cells without NULL and empty map success implies the right type and a wrong type is an error, never a panic; the right type succeeds for readable cells."
  },
  {
   "property": "C41",
   "status": "partial",
   "theorems": [
    "c41_dates",
    "c41_agree_partial",
    "c41_west_refuted"
   ],
   "note": "REFUTED of the code: in zones that are behind UTC the typed iterator gives the day before the stored one. Proved: exactly which date the iterator gives, and that it is the getter's exactly where local time is 0 to 24 hours ahead of UTC at that midnight."
  },
  {
   "property": "C47",
   "status": "partial",
   "theorems": [
    "c47_items_partial",
    "c47_starts_partial",
    "c47_skip",
    "c47_skip_lands",
    "c47_concatenated_partial",
    "c47_received_partial",
    "c47_fixed_keys_refuted",
    "c47_inner_map_refuted",
    "c47_dates_inside_refuted",
    "c47_null_mark_refuted",
    "c47_short_row_refuted"
   ],
   "note": "REFUTED of the code: keys of maps keyed by fixed strings, and of maps inside two arrays, are read from the values; dates, times and dictionaries inside arrays, optional values and maps cannot be iterated; null marks other than 0 and 1 and lengths that do not fit differ. Proved: for all other types of any depth, every item says what the cell of its row says, in order and complete, also across the pieces of a concatenated column; skipping is proved for all iterators of all columns."
  },
  {
   "property": "C54",
   "status": "partial",
   "theorems": [
    "c54_answers_partial",
    "c54_inner_map_refuted",
    "c54_addresses_refuted",
    "c54_dictionary_refuted",
    "c54_concatenated_refuted"
   ],
   "note": "REFUTED of the code: address types ignore the column's type and can read beyond its memory; maps inside two arrays are taken for string pools; dictionary indices of dates are not checked; concatenated columns hand out iterators of wrong types that panic. Proved: for the remaining types and well-formed columns a wrong type is an error and a right one reads the column only."
  },
  {
   "property": "C46",
   "status": "partial",
   "theorems": [
    "c46_addresses_partial",
    "c46_octets_refuted"
   ],
   "note": "REFUTED of the code for octets: four bytes put in a row as [u8; 4] are read back reversed by Ipv4Addr. Proved: every vector of Ipv4Addr, Ipv6Addr or Uuid, optional or not, made a column, written and read comes back unchanged through the getter and the iterator. Missing: addresses inside arrays and maps, which the code cannot make from vectors."
  },
  {
   "property": "C55",
   "status": "partial",
   "theorems": [
    "c55_rows_partial",
    "c55_values_partial",
    "c55_dates_refuted",
    "c55_times_refuted",
    "c55_map_keys_refuted",
    "c55_date_keys_refuted",
    "c55_lost_keys_refuted"
   ],
   "note": "REFUTED of the code: dates wrap modulo 65536 days, times lose fractions and wrap modulo 2^32, maps keyed by bool, dates or times panic when put or read. Proved: everything else, for all rows of one kind per column whose values are in range (room)."
  },
  {
   "property": "C56",
   "status": "partial",
   "theorems": [
    "c56_column_partial",
    "c56_block_partial",
    "c56_lengths",
    "c56_scales_refuted",
    "c56_times_refuted"
   ],
   "note": "REFUTED of the code: decimals of more than one scale panic, times lose fractions and wrap. Proved: for all vectors of values in range (lossless) the column and the block built of such columns give back the elements; another length is refused with a panic."
  },
  {
   "property": "C48",
   "status": "partial",
   "theorems": [
    "c48_url_partial",
    "c48_greeting_partial",
    "c48_no_panic",
    "c48_refused",
    "c48_decoded_twice_refuted",
    "c48_database_refuted"
   ],
   "note": "REFUTED of the code: parameter values are percent-decoded twice (malformed values are accepted), and the database name is not decoded at all. Proved: for all other URLs, every parameter sets exactly its option to what its last value says, anything else becomes a setting, the first malformed value is an error naming it, and the greeting carries the database, user and password. The syntax of URLs (crate url) is an oracle."
  },
  {
   "property": "C57",
   "status": "partial",
   "theorems": [
    "c57_setting_partial",
    "c57_negative_refuted"
   ],
   "note": "REFUTED of the code: negative integers are sent as huge positive ones. Proved for everything else; the text of floats is an oracle."
  },
  {
   "property": "C58",
   "status": "partial",
   "theorems": [
    "c58_pool_partial",
    "c58_default_pool",
    "c58_options_stay",
    "c58_no_room_refuted",
    "c58_alt_port_refuted"
   ],
   "note": "REFUTED of the code: pool_max=0 makes Pool::new panic, and alternative hosts without a port can never be connected to. Proved: everything else (before the 2^64 counter wraps, see C37)."
  },
  {
   "property": "C59",
   "status": "partial",
   "theorems": [
    "c59_limit_partial",
    "c59_none_refuted"
   ],
   "note": "REFUTED of the code: none means a limit of zero. Proved: given limits are kept."
  },
  {
   "property": "C60",
   "status": "partial",
   "theorems": [
    "c60_tls_partial",
    "c60_plain_refuted"
   ],
   "note": "REFUTED of the code: without the feature tls, secure=true becomes a query setting and the connection is in plain text. With the feature the option is set; what native-tls does is not modelled."
  },
  {
   "property": "C61",
   "status": "partial",
   "theorems": [
    "c61_converted_partial",
    "append_convert_send_receive",
    "c61_cut_refuted",
    "c61_decimal_refuted",
    "c61_enum_refuted"
   ],
   "note": "REFUTED of the code: strings too long for a fixed string are cut, decimals lose digits and wrap modulo 2^32, enumerations arrive under the label their number has in the table. Proved: every cell that has a counterpart (converted) arrives as it, for all conversions except maps that need one and dictionaries of DateTime64 (which cannot be written); ranges not from row 0 only for columns without arrays (C13)."
  },
  {
   "property": "C62",
   "status": "partial",
   "theorems": [
    "c62_only_these",
    "c62_all_of_these_partial",
    "c62_address_refuted",
    "c62_dictionary_refuted",
    "c62_missing_refuted",
    "c62_unwritable_refuted"
   ],
   "note": "REFUTED of the code: malformed addresses and strings into numeric dictionaries panic, maps with only one convertible side, other aggregate functions and received times into DateTime64 are refused, dictionaries of DateTime64 panic when written. Proved: exactly the listed pairs of types (accepted) are converted, all others give the error; converting unsliced columns succeeds whenever every cell has a counterpart (without maps that need a conversion, and dictionaries of DateTime64)."
  },
  {
   "property": "C63",
   "status": "partial",
   "theorems": [
    "c63_insert_partial",
    "c63_refused",
    "c63_arrays_refuted"
   ],
   "note": "REFUTED of the code: for every piece size, the last of size + 1 rows of one-element arrays arrives as an array of size + 1 elements. Proved for all blocks whose columns are convertible as in C61, when one piece is enough or no column holds arrays (C102 says what arrives otherwise); blocks that do not fit the header are refused."
  },
  {
   "property": "C64",
   "status": "partial",
   "theorems": [
    "c64_times",
    "c64_before_1970_refuted"
   ],
   "note": "REFUTED of the code: times before 1970 are rounded up instead of down (and wrap in DateTime), precisions above 9 panic. Proved: all times from 1970 to 2262, all precisions up to 9, all ranges of rows."
  },
  {
   "property": "C65",
   "status": "proved",
   "theorems": [
    "c65_programs",
    "c65_others",
    "c65_rows"
   ],
   "note": "Storages are cells of a memory with reference counts; the steps of programs are those of Sharing.v. Steps on values are those of Block.v, whose own properties are C12, C13, C17-C22, C25, C55."
  },
  {
   "property": "C66",
   "status": "partial",
   "theorems": [
    "c66_clones_refuted",
    "c66_alone_partial",
    "c66_plain_partial"
   ],
   "note": "REFUTED of the code: after a block with a nullable, array, map or aggregate column was cloned, pushing to that column of the clone or of the original panics, because the inner storage stays shared (dictionaries: with a new value). Proved: exact agreement for every block whose storages no other living block can have, and in general the only difference is that panic, on columns of several storages."
  },
  {
   "property": "C67",
   "status": "proved",
   "theorems": [
    "c67_rows",
    "c67_pushed",
    "c67_ragged_refuted"
   ],
   "note": "For blocks whose columns have equal lengths, as the property says; the iterator goes by the first column, c67_ragged_refuted shows what it does to the ragged blocks of C22. Pushed values are those of C55."
  },
  {
   "property": "C68",
   "status": "proved",
   "theorems": [
    "c68_stream",
    "c68_exception",
    "c68_same_rows"
   ],
   "note": "Responses as servers send them: the first block has no rows. The server and the arrival of its messages are arbitrary otherwise."
  },
  {
   "property": "C69",
   "status": "partial",
   "theorems": [
    "c69_kinds_partial",
    "c69_sized_partial",
    "c69_panics_refuted"
   ],
   "note": "REFUTED of the code: array offsets and string lengths near 2^64, numbers of eleven bytes, unknown LowCardinality flags, FixedString(0), LowCardinality columns of another number of rows and odd type names panic. Proved: reading always ends; the panics are of these kinds only, outside blocks of two kinds only; columns of cells of one size never panic and have the rows announced."
  },
  {
   "property": "C70",
   "status": "partial",
   "theorems": [
    "c70_refused_partial",
    "c70_known",
    "c70_accepted",
    "c70_kept_refuted"
   ],
   "note": "REFUTED of the code: the fields before the refused one stay in the block, which is ragged then and is sent as bytes that cannot be read. Proved: exactly those fields stay; the refused field is one whose column the block has not; rows of known columns are never refused."
  },
  {
   "property": "C71",
   "status": "proved",
   "theorems": [
    "c71_dates",
    "c71_times",
    "c71_times64"
   ],
   "note": "The offset of a zone at a moment is an oracle below one day; the calendar is computed by chrono, whose result the model computes and the theorems compare with counting days."
  },
  {
   "property": "C72",
   "status": "partial",
   "theorems": [
    "c72_clear_partial",
    "c72_strings_exact",
    "c72_times_exact",
    "c72_fractions_exact",
    "c72_strings_refuted"
   ],
   "note": "REFUTED of the code: strings that are not UTF-8, strings in arrays, NULL, fractions of seconds and repeated hours print like other cells. Proved for all types without strings, floats, IPv6 addresses and DateTime64, nested to any depth, in zones of constant offset (negative decimals from -1 down)."
  },
  {
   "property": "C73",
   "status": "partial",
   "theorems": [
    "c73_alike_partial",
    "c73_alike_refuted"
   ],
   "note": "REFUTED of the code: times, enumerations and maps print differently. Proved for all other values of any nesting."
  },
  {
   "property": "C74",
   "status": "partial",
   "theorems": [
    "c74_table_partial",
    "c74_ragged_refuted"
   ],
   "note": "REFUTED of the code: columns of different lengths panic or lose cells, and a block without columns has lines of different widths. Proved for all other blocks whose titles and cells print on one line."
  },
  {
   "property": "C75",
   "status": "partial",
   "theorems": [
    "c75_exact",
    "c75_columns_partial",
    "c75_options_refuted"
   ],
   "note": "REFUTED of the code: an iterator of optional addresses or UUIDs over a column of other addresses announces more items than it gives. Proved for every other iterator of any column, well-formed or not, and for optional items over well-formed columns of the matching type (as C47)."
  },
  {
   "property": "C76",
   "status": "proved",
   "theorems": [
    "c76_sound",
    "c76_one_is_enough",
    "c76_all_fail",
    "c76_no_address",
    "c76_unresolved"
   ],
   "note": "Futures of the operating system are arbitrary sequences of answers; SelectOk of futures-util is modelled from its source."
  },
  {
   "property": "C77",
   "status": "proved",
   "theorems": [
    "c77_secure",
    "c77_gets_there",
    "c77_no_host"
   ],
   "note": "Building the connector and the handshake are oracles; which certificates a handshake accepts is outside the model."
  },
  {
   "property": "C78",
   "status": "partial",
   "theorems": [
    "c78_tokio",
    "c78_async_std_partial",
    "c78_async_std_refuted"
   ],
   "note": "REFUTED of the code for the feature async_std: every error but an I/O error becomes an I/O error (the exception of a server loses its code), and a timeout is an I/O error, not the timeout error. Holds with tokio; results and I/O errors hold with async-std."
  },
  {
   "property": "C79",
   "status": "partial",
   "theorems": [
    "c79_calm_partial",
    "c79_cycle_refuted",
    "c79_abandoned_refuted"
   ],
   "note": "REFUTED of the code: a connection that was opened while another one came back, and an attempt nobody waits for any more, hold a reference to the pool they are in, so that it is never freed. Proved: when connections come back only while none is being opened, the only reference a pool has to itself is that of an attempt under way."
  },
  {
   "property": "C80",
   "status": "partial",
   "theorems": [
    "c80_rows_partial",
    "c80_sent_partial",
    "c80_refuted"
   ],
   "note": "REFUTED of the code for a LowCardinality column whose dictionary has more entries than its rows explain: the number of a new entry is cut to the width of the indices and the new row reads as another value. Proved when dictionaries have at most one entry more than rows and than indices can number, offsets climb and keys are whole numbers, strings, dates or times; sending excludes DateTime64 (C08)."
  },
  {
   "property": "C81",
   "status": "proved",
   "theorems": [
    "c81_values",
    "c81_cells",
    "c81_server"
   ],
   "note": "c81_values is the statement about Rust values; c81_cells the one about cells of any insertable columns (C63). Servers are functions that satisfy keeps_table; c81_server shows one for any table. LZ4 is an oracle that gives back what it compressed."
  },
  {
   "property": "C82",
   "status": "partial",
   "theorems": [
    "c82_operations_partial",
    "c82_query_refuted",
    "c82_next_query_refuted"
   ],
   "note": "REFUTED of the code for queries: after a message that cannot be read, or an I/O error, the stream stays in the state Reading and dropping it gives the connection back to the handle; without ping_before_query the next query is given what is left of the first answer. Proved for checks, greetings, statements and inserts, whatever the error."
  },
  {
   "property": "C83",
   "status": "partial",
   "theorems": [
    "c83_comes_back_partial",
    "c83_refuted"
   ],
   "note": "REFUTED of the code: a socket that accepts no bytes any more (Ok(0)) keeps send in its loop for ever, without an error. Proved for every socket that does not accept nothing for ever."
  },
  {
   "property": "C84",
   "status": "partial",
   "theorems": [
    "c09_block",
    "c84_lost_refuted",
    "c84_too_big_refuted",
    "c84_case",
    "c84_wrapped_refuted",
    "c84_wrapped_case"
   ],
   "note": "REFUTED of the code: above 0x7E000000 bytes LZ4 produces nothing and the frame of 25 bytes that is sent holds nothing of the block, without an error; above 1 GB of compressed data the frame is written but no reader of this library accepts it. c84_case: there are such blocks. At 4 GB the length wraps around: of what is longer only the beginning is compressed, into a frame that is in order, and blocks that differ in the rest are sent as the same bytes (c84_wrapped_refuted, c84_wrapped_case). c09_block: below these limits the block is read back."
  },
  {
   "property": "C85",
   "status": "partial",
   "theorems": [
    "c85_refuted"
   ],
   "note": "REFUTED of the code: the three messages are read by the same function into the same packet, so that totals and extremes come as further rows of the result."
  },
  {
   "property": "C86",
   "status": "partial",
   "theorems": [
    "c86_column_partial",
    "c86_block_partial",
    "c86_message_partial",
    "c86_array_low_refuted",
    "c86_low_nullable_refuted"
   ],
   "note": "REFUTED of the code for LowCardinality inside of arrays and maps (the version of the dictionary comes before the offsets, the client expects it after them) and for LowCardinality(Nullable(...)) (the dictionary has no null marks, the client expects them; it waits for ever or takes a null for a value). Proved for all other types. Not covered: names with quoted quotes, SimpleAggregateFunction of types with parameters, maps whose key has a comma in its name, FixedString(0)."
  },
  {
   "property": "C87",
   "status": "partial",
   "theorems": [
    "c87_cells_partial",
    "c87_self_contained",
    "c87_refuted"
   ],
   "note": "REFUTED of the code: nothing is checked when a block is received; a cell then panics when read (offsets that decrease or lie behind the elements, indices beyond the dictionary, maps keyed by types without a hash), and a Bool byte other than 0 and 1 becomes a bool that is neither. Proved for all columns of types without references and booleans, whatever the server sends (c87_self_contained), and for all others when their references are in order (c87_cells_partial)."
  },
  {
   "property": "C88",
   "status": "proved",
   "theorems": [
    "c88_ping",
    "c88_execute",
    "c88_fetch_all",
    "c88_stream"
   ],
   "note": "For a connection that is in step (idle) after the check before the operation; k, c and the server are arbitrary otherwise. That a whole answer does succeed is C31."
  },
  {
   "property": "C89",
   "status": "partial",
   "theorems": [
    "c89_insert_partial",
    "c89_refuted"
   ],
   "note": "REFUTED of the code: a block in answer to the data counts as its end (read_block), so that an exception after it is not seen by the insert and is left to the next operation. Proved for servers that do not answer data with a block."
  },
  {
   "property": "C90",
   "status": "proved",
   "theorems": [
    "c90_date",
    "c90_time"
   ],
   "note": "Dates are days since 1970 and times seconds and nanoseconds, as chrono gives them. That values out of range should be refused is C40 and C52."
  },
  {
   "property": "C91",
   "status": "proved",
   "theorems": [
    "c91_comparison"
   ],
   "note": "Scales above 18 cannot be made with the public constructors.."
  },
  {
   "property": "C92",
   "status": "proved",
   "theorems": [
    "c92_instant",
    "c92_precision"
   ],
   "note": "With overflow checks; that these panics should not happen is C42."
  },
  {
   "property": "C93",
   "status": "proved",
   "theorems": [
    "c93_stored"
   ],
   "note": "That such decimals should be refused or rescaled is C45."
  },
  {
   "property": "C94",
   "status": "proved",
   "theorems": [
    "c94_equality",
    "c94_scale",
    "c94_of",
    "c94_to_stored",
    "c94_from_stored",
    "c94_cell",
    "c94_frame"
   ],
   "note": "The size computations of string pools, fixed strings and addresses, which overflow beyond 2^48 rows only, are not compared. Decimal::of is compared for the integer types."
  },
  {
   "property": "C95",
   "status": "partial",
   "theorems": [
    "c95_equality_partial",
    "c95_time_partial",
    "c95_time_refuted",
    "c95_refuted"
   ],
   "note": "REFUTED of the code: 2^46 + 1 equals 1.000000000000000000, Decimal::of(100_i8, 1) is -2.4, a time in 2603 is read as one in 2019, every DateTime64 of precision 10 to 18 as 1970, and a frame that announces less than nine bytes makes LZ4_decompress_safe be called with a negative length. Proved: the exact meaning of the comparison, correct where the products fit 64 bits; times whose nanoseconds fit are right."
  },
  {
   "property": "C96",
   "status": "partial",
   "theorems": [
    "c96_reflexive",
    "c96_symmetric",
    "c96_total_partial",
    "c96_transitive_refuted"
   ],
   "note": "REFUTED of the code: 1 = 1.000000000000000000 = 2^46 + 1, all three made with Decimal::new. It is total, reflexive and symmetric."
  },
  {
   "property": "C97",
   "status": "partial",
   "theorems": [
    "c97_hello",
    "c97_ping",
    "c97_check",
    "c97_execute",
    "c97_stream",
    "c97_poll",
    "c97_drop",
    "c97_fetch_all",
    "c97_insert_partial",
    "c97_refuted"
   ],
   "note": "REFUTED of the code: inserting a block without rows sends the block that ends the data twice; the insert succeeds and the complaint about the second is left to the next operation. Proved for all else (inserts of blocks with rows; the oracles for parsing addresses give 4 and 16 bytes)."
  },
  {
   "property": "C98",
   "status": "proved",
   "theorems": [
    "c98_every_answer",
    "c98_ping",
    "c98_hello",
    "c98_execute",
    "c98_execute_unsent",
    "c98_fetch_all",
    "c98_insert_statement",
    "c98_insert_next_statement",
    "c98_insert_data"
   ],
   "note": "Each theorem gives the exact result and connection. That a closed connection should be an error everywhere is C33."
  },
  {
   "property": "C99",
   "status": "proved",
   "theorems": [
    "c99_ping",
    "c99_hello",
    "c99_execute",
    "c99_read_block",
    "c99_fetch_all",
    "c99_unsent",
    "c99_stuck"
   ],
   "note": "Nothing waits to be sent and the socket takes the whole command (else c99_unsent, c99_stuck). Bytes that come together with the close do not count as received (C27)."
  },
  {
   "property": "C100",
   "status": "proved",
   "theorems": [
    "c100_session"
   ],
   "note": "With the messages of the answers the operations are those of Client.v, so that C31-C34 and C98 say what is reported. Commands that cannot be encoded and answers that cannot be read end in errors or panics (C98, C99, C86)."
  },
  {
   "property": "C101",
   "status": "partial",
   "theorems": [
    "c101_value_symmetric",
    "c101_value_transitive",
    "c101_cell_symmetric",
    "c101_cell_transitive",
    "c101_cells_keyed",
    "c101_block_symmetric",
    "c101_block_transitive",
    "c101_value_reflexive",
    "c101_value_hash",
    "c101_cell_hash",
    "c101_keys",
    "c101_reflexive_refuted"
   ],
   "note": "REFUTED of the code: maps, NaN and values holding them are not equal to themselves, comparing a DateTime64 out of range with itself panics, and boolean cells (IP and UUID cells too, C24) are not equal to themselves. c101_value_reflexive says exactly which values are. Symmetry, transitivity and the agreement with hashing are proved without restriction (of cells: of all that columns can give)."
  },
  {
   "property": "C102",
   "status": "proved",
   "theorems": [
    "c102_pieces",
    "c102_right_exactly"
   ],
   "note": "Gives exactly what C13 refutes. Not covered: arrays inside a Nullable or inside a piece of a piece."
  },
  {
   "property": "C103",
   "status": "proved",
   "theorems": [
    "c103_frame",
    "c103_unpacks",
    "c103_through",
    "c103_block"
   ],
   "note": "LZ4 itself is a variable of the statement. The data is assumed to be shorter than 2^64 bytes."
  },
  {
   "property": "C104",
   "status": "partial",
   "theorems": [
    "c104_nearest_partial",
    "c104_close",
    "c104_refuted"
   ],
   "note": "REFUTED of the code: the number is rounded to a float before the division, so 900719925474099.5, which is an f64, becomes another float. Proved: nearest for numbers of up to 2^53 (2^24) in the last place; for all others an error bound of little more than the last bit, and the sign."
  },
  {
   "property": "C105",
   "status": "partial",
   "theorems": [
    "c105_close",
    "c105_fits",
    "c105_whole",
    "c105_trip_partial",
    "c105_trip_whole",
    "c105_refuted",
    "c105_range_refuted"
   ],
   "note": "REFUTED of the code: the f64 nearest to 0.29 becomes the decimal 0.28 (also on the way decimal, float, decimal); NaN becomes 0 and whatever is below -2^63 the least i64. Proved: cut up to half a last bit of the product; whole floats exactly; the trip loses at most one in the last place."
  },
  {
   "property": "C106",
   "status": "partial",
   "theorems": [
    "c106_options_partial",
    "c106_errors",
    "c106_pool",
    "c106_url_exactly",
    "c106_url_refuted"
   ],
   "note": "REFUTED of the code: options read from a URL keep its user name and password in the address, which is shown, and a source that was not used yet shows the whole URL. Proved: options given user name and password as such do not show them, nor do pools, handles and URL errors; c106_url_exactly says exactly what the others show."
  },
  {
   "property": "C107",
   "status": "proved",
   "theorems": [
    "c107_references",
    "c107_no_panic"
   ],
   "note": "The URL parser is a variable of the statement. Calls are taken to happen one after the other, as the lock makes them."
  },
  {
   "property": "C108",
   "status": "proved",
   "theorems": [
    "c108_interned"
   ],
   "note": "Calls are taken to happen one after the other, as the lock makes them."
  },
  {
   "property": "C109",
   "status": "proved",
   "theorems": [
    "c109_uuid",
    "c109_ipv4"
   ],
   "note": ""
  },
  {
   "property": "C110",
   "status": "partial",
   "theorems": [
    "c110_fixed",
    "c110_ranges_partial",
    "c110_refuted"
   ],
   "note": "REFUTED of the code: Decimal32(200) is read as a decimal of nine digits with 200 of them after the point, a 300 in an Enum8 as 44, and DateTime64 with 4294967295 digits is accepted. Proved: FixedString exactly; Decimal(p, s) has s <= p <= 18; numbers of an Enum16 are in range."
  },
  {
   "property": "C111",
   "status": "partial",
   "theorems": [
    "c111_named_partial",
    "c111_server",
    "c111_refuted"
   ],
   "note": "REFUTED of the code: the error for every option calls it $t, a vector of numbers is called by its element, and for maps the error names no type at all. Proved: the type of the cell is right, all other types are called by their names, and exactly which text options and vectors get. Server errors are told apart by their text if there is no parenthesis in their names."
  },
  {
   "property": "C112",
   "status": "partial",
   "theorems": [
    "c112_in_time_partial",
    "c112_check_partial",
    "c112_none_refuted",
    "c112_check_refuted"
   ],
   "note": "REFUTED of the code: none for execute_timeout or insert_timeout is taken as no time at all, so that every such operation fails at once; the check goes on for ever with a server that takes connections and answers no pings, or with a pool that has none free. Proved: all operations whose time is set keep it; the time of a check if connections that are got answer. The clock is ideal: who can go on does."
  },
  {
   "property": "C113",
   "status": "proved",
   "theorems": [
    "c113_read",
    "c113_end",
    "c113_room"
   ],
   "note": ""
  },
  {
   "property": "C114",
   "status": "partial",
   "theorems": [
    "c114_given_partial",
    "c114_failed_refuted"
   ],
   "note": "REFUTED of the code: when an attempt that another task started has failed, its error is given to the next task that asks, although a connection is idle. Proved: in every other state of a pool used by one thread at a time the oldest idle connection is given, none is opened; and the idle connections stay for those who ask after the error."
  },
  {
   "property": "C115",
   "status": "proved",
   "theorems": [
    "c115_waits"
   ],
   "note": "For one thread at a time, as the statement says. That the task is still the one to be woken later is not said: another one that asks takes its place (C36)."
  },
  {
   "property": "C116",
   "status": "partial",
   "theorems": [
    "c116_cells",
    "c116_own",
    "c116_back",
    "c116_borrow_partial",
    "c116_borrow_refuted"
   ],
   "note": "REFUTED of the code: a map with dates or times for keys, which can be made as an owned value, panics when it is borrowed as a cell; so does every chrono time. Proved: all cells can be owned and borrowed unchanged; an owned value can be borrowed unchanged exactly if there is no chrono time and no map with other keys than text and whole numbers in it; and what was borrowed is got back."
  },
  {
   "property": "C117",
   "status": "partial",
   "theorems": [
    "c117_waits_partial",
    "c117_empty_frame_refuted"
   ],
   "note": "REFUTED of the code with compression: after a frame that carries no data the client waits for ever, whatever follows. Proved for connections without compression; with it, c103_block says exactly what is reported when."
  },
  {
   "property": "C118",
   "status": "partial",
   "theorems": [
    "c118_frames",
    "c118_limit_partial",
    "c118_waiting",
    "c118_texts_refuted"
   ],
   "note": "REFUTED of the code: fifteen bytes of an exception make it set up a buffer of any size up to 2^63 - 1 and wait for that many bytes. Proved: the frames of a compressed block are waited for in pieces of at most a gigabyte; every other piece is of less than 2^63 bytes; and waiting for a block is waiting for such a piece. Not said: what is reserved for the data inside a compressed frame before it is there, and buffers that are reserved for several pieces together."
  }
 ]
}