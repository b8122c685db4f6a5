{"id": "C01", "title": "Variable-length integers survive the wire", "statement": "Every 64-bit unsigned integer the client writes in the variable-length encoding is at most 10 bytes long, is the shortest such encoding, and is read back by the client's own reader as the same integer, leaving every byte after it unread.", "quantifier": "all u64 values, all trailing bytes", "why_tests_cant": "2^64 values and every byte-length boundary; tests sample a handful.", "anchors": ["src/binary/uvarint.rs: put_uvarint", "src/binary/encoder.rs: Encoder::uvarint", "src/binary/read_ex.rs: ReadEx::read_uvarint"]}
{"id": "C02", "title": "Reading a variable-length integer never yields a wrong value", "statement": "For every byte string, reading a variable-length integer either returns the mathematical value of the base-128 digits read (which is below 2^64), or asks for more bytes, or reports overflow; it never returns a truncated or wrapped number. In particular no input makes it panic.", "quantifier": "all byte strings (peer controlled, not only those our encoder makes)", "why_tests_cant": "The input is adversarial and unbounded; overlong and oversize encodings are exactly the inputs nobody writes tests for.", "anchors": ["src/binary/read_ex.rs: ReadEx::read_uvarint"]}
{"id": "C03", "title": "Fixed-width integers survive the wire", "statement": "Every value of each of the integer types i8..i128, u8..u128, bool, and every bit pattern of f32 and f64, is written little-endian in exactly its width and read back unchanged; two different values never share an encoding.", "quantifier": "all values of all thirteen scalar types", "why_tests_cant": "Up to 2^128 values per type, including the sign and width boundaries.", "anchors": ["src/types/marshal.rs: Marshal", "src/types/unmarshal.rs: Unmarshal", "src/types/stat_buffer.rs: StatBuffer", "src/binary/encoder.rs: Encoder::write", "src/binary/read_ex.rs: ReadEx::read_scalar"]}
{"id": "C04", "title": "Strings survive the wire and text is always valid UTF-8", "statement": "Every string written by the client is read back byte for byte with nothing else consumed; a length-prefixed byte string that is not valid UTF-8 is rejected by the text reader instead of being handed out as text; skipping a string consumes exactly that string.", "quantifier": "all byte strings of any length, all trailing bytes", "why_tests_cant": "Unbounded lengths (the skip path switches buffers at 1024 bytes) and all of Unicode.", "anchors": ["src/binary/encoder.rs: Encoder::string, byte_string", "src/binary/read_ex.rs: read_string, skip_string, read_str_into_buffer"]}
{"id": "C05", "title": "A partially received server message is never misread", "statement": "If a byte string begins with a complete server message, then on every strict prefix of that message the client reports 'more data needed' and nothing else: no error, no different message, no panic; and bytes following the message never change what it decodes to.", "quantifier": "all server messages, all cut points, all following bytes, all protocol revisions", "why_tests_cant": "TCP may cut anywhere; the number of cut points times messages is unbounded.", "anchors": ["src/binary/parser.rs: Parser::parse_packet", "src/io/transport.rs: ClickhouseTransport::try_parse_msg", "src/binary/read_ex.rs: ReadEx"]}
{"id": "C06", "title": "Server messages decode to what the server sent", "statement": "For every server hello, exception, progress, pong, end-of-stream, profile-info and table-columns message, encoded as the protocol prescribes for the negotiated revision, the client decodes exactly the field values sent and consumes exactly the message. Fields that exist only from a given revision on are read iff the revision has them.", "quantifier": "all field values, all server revisions (each revision gate on both sides)", "why_tests_cant": "Field values and revision numbers are unbounded combinations.", "anchors": ["src/binary/parser.rs: parse_hello, parse_server_info, parse_exception, parse_progress, parse_profile_info, parse_table_columns", "src/binary/protocol.rs"]}
{"id": "C07", "title": "Block headers survive the wire", "statement": "The header that precedes each block (overflow flag and bucket number) is read back exactly as written, for every flag and every 32-bit bucket number, and fields may arrive in any order; an unknown field tag is an error.", "quantifier": "all header values, all field orders, all following bytes", "why_tests_cant": "Value and ordering combinations; tests use the default header only.", "anchors": ["src/types/block/block_info.rs: BlockInfo::read, write"]}
{"id": "C08", "title": "Blocks survive the wire, whatever their column types", "statement": "For every block whose columns are well formed, of any supported column type and any nesting of Nullable, Array, Map, LowCardinality and SimpleAggregateFunction the type printer/parser pair supports, writing the block and reading the bytes back yields a block with the same column names, the same column types, the same number of rows and the same cell values, and consumes exactly the bytes written.", "quantifier": "all blocks: any number of columns and rows, any type nesting depth, any cell values", "why_tests_cant": "The type grammar is recursive and the data unbounded.", "anchors": ["src/types/block/mod.rs: Block::write, Block::load, raw_load", "src/types/column/mod.rs: Column::read, Column::write", "src/types/column/factory.rs: load_data"]}
{"id": "C09", "title": "Compression is transparent", "statement": "Reading data through the decompressing reader gives exactly the bytes that were compressed, however the peer split the data into frames: any parse that succeeds on the plain bytes succeeds with the same result on any sequence of non-empty compressed frames carrying those bytes; in particular a block written with compression on is read back equal.", "quantifier": "all payloads, all frame splits, all read sizes", "why_tests_cant": "Frame boundaries can fall inside any field; tests exercise single-frame payloads.", "anchors": ["src/types/block/compressed.rs: CompressedReader, decompress_buffer", "src/types/block/mod.rs: Block::write"]}
{"id": "C10", "title": "Corrupted compressed frames are rejected", "statement": "Data is handed out from a compressed frame only if the 128-bit CityHash of the frame's header and body equals the checksum transmitted with it, the method byte is LZ4 and the declared size is within the limit; any frame failing one of these is an error, never data.", "quantifier": "all byte strings as frames", "why_tests_cant": "All possible corruptions cannot be enumerated.", "anchors": ["src/types/block/compressed.rs: decompress_buffer", "clickhouse-rs-cityhash-sys/src/cc/city.cc: CityHash128"]}
{"id": "C11", "title": "Malformed compressed frames never crash the client", "statement": "For every byte string presented as a compressed frame, reading terminates with data, 'more data needed' or an error; it does not panic and does not wait for more data that will never be asked for.", "quantifier": "all byte strings as frames", "why_tests_cant": "Adversarial input space.", "anchors": ["src/types/block/compressed.rs: decompress_buffer, CompressedReader::read", "src/binary/read_ex.rs: read_bytes"]}
{"id": "C12", "title": "Large inserts are split without losing or reordering rows", "statement": "Splitting a block for insertion into pieces of at most n rows yields pieces whose rows, concatenated in order, are exactly the rows of the block; every piece has between 1 and n rows, and all but the last have exactly n; an empty block yields one empty piece.", "quantifier": "all blocks, all n > 0", "why_tests_cant": "The limit is 1,048,576 rows: a test of the multi-piece path needs millions of rows.", "anchors": ["src/types/block/chunk_iterator.rs: ChunkIterator::next", "src/types/block/mod.rs: Block::chunks", "src/lib.rs: ClientHandle::insert"]}
{"id": "C13", "title": "Each piece of a split insert carries the right data", "statement": "For every column and every row range, the bytes sent for that range decode to exactly the cell values of those rows.", "quantifier": "all column types, all row ranges", "why_tests_cant": "Only inserts of more than 1,048,576 rows produce a range not starting at row 0.", "anchors": ["src/types/column/chunk.rs: ChunkColumnData::save", "src/types/column/array.rs: save", "src/types/column/map.rs: save", "src/types/column/low_cardinality.rs: save", "src/types/column/nullable.rs: save"]}
{"id": "C14", "title": "Column type names print and parse consistently", "statement": "For every column type the client can print, parsing the printed name selects a column of that same type.", "quantifier": "all types, any nesting depth, all enum labels, all fixed-string lengths, decimal precisions and scales", "why_tests_cant": "The type grammar is recursive; enum labels are arbitrary text.", "anchors": ["src/types/mod.rs: SqlType::to_string", "src/types/column/factory.rs: load_data, parse_nullable_type, parse_fixed_string, parse_array_type, parse_map_type, parse_decimal, parse_enum, parse_date_time, parse_date_time64, parse_simple_agg_fun, parse_low_cardinality"]}
{"id": "C15", "title": "An unknown column type from the server is an error, not a crash", "statement": "For every byte string sent as a column type name, the client either recognises the type or reports an error; it never panics.", "quantifier": "all type-name strings", "why_tests_cant": "Peer-controlled text.", "anchors": ["src/types/column/factory.rs: load_data and the parse_* functions"]}
{"id": "C16", "title": "String columns give back exactly what was put in", "statement": "After any sequence of strings of any lengths has been appended to a string column (or loaded from the wire), the i-th string read is the i-th appended; reads never touch memory outside the buffers the column allocated.", "quantifier": "all sequences of byte strings, all initial capacities, all indices", "why_tests_cant": "The pooled storage switches chunks at data-dependent points and reads through unchecked pointers.", "anchors": ["src/types/column/string_pool.rs: StringPool::allocate, try_allocate, reserve, get, get_by_pointer", "src/types/column/string.rs: StringColumnData"]}
{"id": "C17", "title": "Array columns give back exactly what was put in", "statement": "After any sequence of arrays has been appended to an array column, row i reads as the i-th array appended, for any element type including nested arrays; offsets never decrease.", "quantifier": "all sequences of arrays, all element column types", "why_tests_cant": "Unbounded nesting and lengths.", "anchors": ["src/types/column/array.rs: ArrayColumnData::push, at"]}
{"id": "C18", "title": "Null stays null and values stay values", "statement": "After any sequence of optional values has been appended to a nullable column, row i reads as NULL exactly when the i-th appended value was NULL, and otherwise as that value, also after a round trip over the wire.", "quantifier": "all sequences of optional values, all inner types", "why_tests_cant": "All null patterns.", "anchors": ["src/types/column/nullable.rs: NullableColumnData", "src/types/value.rs: Value::default"]}
{"id": "C19", "title": "Low-cardinality columns give back exactly what was put in", "statement": "After any sequence of values has been appended to an empty low-cardinality column, row i reads as the i-th value appended, however many distinct values there are (the index width grows as needed), and the dictionary holds each distinct value once.", "quantifier": "all sequences of values, all distinct-value counts across the 2^8 and 2^16 index-width switches", "why_tests_cant": "Needs more than 65,536 distinct values to exercise every switch.", "anchors": ["src/types/column/low_cardinality.rs: LowCardinalityColumnData::push, at, Index::push, inc_max_len"]}
{"id": "C20", "title": "Fixed-length strings are padded or cut to length", "statement": "Appending a string to a fixed-length column stores its first n bytes followed by zero bytes up to n; all rows keep length n and earlier rows are unaffected.", "quantifier": "all sequences of strings, all n > 0", "why_tests_cant": "All length relations between value and column.", "anchors": ["src/types/column/fixed_string.rs: FixedStringColumnData::push, at, save, load"]}
{"id": "C21", "title": "Concatenated columns read like one column", "statement": "Reading row i of a column built by concatenating several pieces gives the row of the piece that covers i, with pieces of any sizes including empty ones; the lookup terminates and the length is the sum of the lengths.", "quantifier": "all lists of pieces of any sizes, all row indices", "why_tests_cant": "The lookup is a hand-written search over piece offsets; all partitions cannot be tested.", "anchors": ["src/types/column/concat.rs: ConcatColumnData, build_index, find_chunk", "src/types/block/mod.rs: Block::concat"]}
{"id": "C22", "title": "Rows built by pushing keep the block rectangular", "statement": "After any sequence of successful row pushes, all columns of the block have the same number of rows, equal to the number of rows pushed.", "quantifier": "all sequences of row pushes with any sets of column names", "why_tests_cant": "All orders and subsets of names.", "anchors": ["src/types/block/builder.rs: RowBuilder, put_param", "src/types/block/mod.rs: Block::push"]}
{"id": "C23", "title": "Reading a cell as the wrong Rust type is an error", "statement": "Requesting a cell as a given Rust type succeeds only if the stored ClickHouse type is the one that Rust type stands for, and then returns the stored value unchanged; otherwise the result is an error, never a converted or reinterpreted value.", "quantifier": "all stored types and values, all requested types", "why_tests_cant": "The type matrix times all values.", "anchors": ["src/types/from_sql.rs: FromSql impls", "src/types/block/mod.rs: Block::get"]}
{"id": "C24", "title": "A block is equal to a copy of itself", "statement": "Comparing a block with a clone of itself yields true, for all column types.", "quantifier": "all blocks, all column types", "why_tests_cant": "Equality is defined by a hand-written case table per cell type.", "anchors": ["src/types/block/mod.rs: PartialEq for Block", "src/types/column/mod.rs: PartialEq for Column", "src/types/value_ref.rs: PartialEq for ValueRef"]}
{"id": "C25", "title": "Columns are found by name", "statement": "Asking a block for a column by name returns the first column with that name, and an error if there is none; asking for a cell or column by position out of range is an error, not a crash.", "quantifier": "all blocks, names and positions", "why_tests_cant": "All name multisets and positions.", "anchors": ["src/types/block/mod.rs: ColumnIdx, Block::get, Block::get_column"]}
{"id": "C26", "title": "Responses are independent of how TCP fragments them", "statement": "For every sequence of server messages and every way of cutting its bytes into reads interleaved with 'not ready' moments, the client's message stream delivers exactly those messages in order, and is never stuck with a complete message in its buffer.", "quantifier": "all message sequences, all fragmentations and poll schedules", "why_tests_cant": "Exponentially many fragmentations.", "anchors": ["src/io/transport.rs: Stream for ClickhouseTransport::poll_next, try_parse_msg", "src/io/read_to_end.rs: read_to_end"]}
{"id": "C27", "title": "Messages received before the connection closes are delivered", "statement": "If the server sends complete messages and then closes the connection, every complete message is delivered before the stream ends.", "quantifier": "all message sequences, all read schedules including data and close arriving together", "why_tests_cant": "Depends on a race between data arrival and close.", "anchors": ["src/io/transport.rs: poll_next"]}
{"id": "C28", "title": "Requests reach the server intact under partial writes", "statement": "For every sequence of commands queued and every way the socket accepts bytes (partial writes, not-ready moments), the bytes sent are a prefix of the concatenation of the encoded commands, in order, without loss or duplication, and all of it once the send completes.", "quantifier": "all command sequences, all write schedules", "why_tests_cant": "All partial-write schedules.", "anchors": ["src/io/transport.rs: wr_flush, send", "src/types/cmd.rs: Cmd::get_packed_command"]}
{"id": "C29", "title": "The server understands the query we send", "statement": "For every query text, query id, set of settings, compression choice and server revision, decoding the bytes of the query message the way the protocol prescribes for that revision recovers exactly the query text, id, compression flag and settings, with no bytes left over.", "quantifier": "all queries, ids, settings and revisions", "why_tests_cant": "Each revision gate times all field values.", "anchors": ["src/types/cmd.rs: encode_query, serialize_settings, encode_hello", "src/types/query.rs"]}
{"id": "C30", "title": "Inserted column names cannot break out of their quotes", "statement": "For every list of column names, the INSERT statement built either quotes each name in backticks with no backtick inside, or leaves it bare only if it consists of digits; a name containing a backtick is rejected with an error and nothing is sent.", "quantifier": "all column names", "why_tests_cant": "All Unicode strings, injection attempts included.", "anchors": ["src/lib.rs: make_query, column_name_to_string"]}
{"id": "C31", "title": "A query delivers exactly the server's data blocks", "statement": "On a connection in step with the server, running a query to completion yields exactly the non-empty data blocks the server sends after the header block and before end-of-stream, in order; a server exception is reported as an error and ends the stream; afterwards the connection is in step again.", "quantifier": "all server responses allowed by the protocol", "why_tests_cant": "All interleavings of progress, profile and data messages.", "anchors": ["src/types/query_result/stream_blocks.rs: BlockStream::poll_next", "src/types/query_result/mod.rs: QueryResult", "src/io/transport.rs: PacketStream"]}
{"id": "C32", "title": "An abandoned query does not leak rows into the next one", "statement": "If a result stream is dropped before it is exhausted, the next operation on the same connection never sees messages belonging to the abandoned query.", "quantifier": "all abandonment points, all following operations", "why_tests_cant": "Crash-point style property: any prefix of the response may have been consumed.", "anchors": ["src/types/query_result/stream_blocks.rs: Drop for BlockStream", "src/io/transport.rs: ClickhouseTransport::clear", "src/lib.rs: ClientHandle::ping, execute, insert", "src/types/query_result/mod.rs: stream_blocks_"]}
{"id": "C33", "title": "A connection closed by the server is reported as an error", "statement": "If the server closes the connection at any point of a handshake, ping, query, execute or insert, the operation returns an error; it does not panic and does not hang.", "quantifier": "all cut points of all exchanges", "why_tests_cant": "Every cut point of every exchange.", "anchors": ["src/lib.rs: hello, ping, execute, send_insert_query_", "src/io/transport.rs: read_block, clear"]}
{"id": "C34", "title": "The pool never exceeds its maximum size", "statement": "At all times the number of connections that are idle, being opened or in use is at most the configured maximum.", "quantifier": "all histories of acquire, release, connect success/failure and cancellation; all thread interleavings of the counters", "why_tests_cant": "Thread interleavings and histories are unbounded.", "anchors": ["src/pool/mod.rs: Pool::poll, new_connection, take_conn, return_conn, conn_count, Inner::release_conn"]}
{"id": "C35", "title": "The pool accounts for every connection", "statement": "The in-use counter always equals the number of handles (or abandoned transports) outstanding: every connection taken is given back exactly once, whether returned, dropped while busy, or dropped broken; it never underflows. At most the configured minimum stays idle through returns.", "quantifier": "all histories of acquire, query, detach, attach, drop", "why_tests_cant": "All histories.", "anchors": ["src/pool/mod.rs: take_conn, return_conn, PoolBinding, Drop for ClientHandle", "src/io/transport.rs: Drop for TransportStatus"]}
{"id": "C36", "title": "Waiting for a connection always ends", "statement": "If a task waits for a connection and a slot becomes free (a connection is returned or released, or an opening attempt fails), some waiting task is woken.", "quantifier": "all histories and cancellation points", "why_tests_cant": "Lost wake-ups need particular histories.", "anchors": ["src/pool/mod.rs: Pool::poll, return_conn, Inner::release_conn, handle_futures", "src/pool/futures/get_handle.rs: GetHandle"]}
{"id": "C37", "title": "Server addresses are used in turn", "statement": "Successive connection attempts use the configured addresses cyclically, so any n consecutive attempts use each of the n addresses exactly once.", "quantifier": "all numbers of addresses, all attempt numbers", "why_tests_cant": "All n and positions.", "anchors": ["src/pool/mod.rs: get_addr"]}
{"id": "C38", "title": "Retries are bounded", "statement": "Checking a connection before use performs at most the configured number of retries and then reports the error.", "quantifier": "all sequences of ping and reconnect outcomes", "why_tests_cant": "Failure sequences are unbounded.", "anchors": ["src/retry_guard.rs: retry_guard"]}
{"id": "C39", "title": "A failed operation leaves the handle usable or reports an error", "statement": "After any operation on a client handle fails, every further operation on the handle returns a result or an error; it never panics.", "quantifier": "all sequences of operations and failures", "why_tests_cant": "All failure histories.", "anchors": ["src/pool/mod.rs: PoolBinding::attach, detach", "src/lib.rs: wrap_future, wrap_stream, check_connection, get_inner", "src/types/query_result/stream_blocks.rs: BlockStream::poll_next"]}
{"id": "C40", "title": "Dates survive the wire", "statement": "Every calendar date ClickHouse's Date type can hold (1970-01-01 to 2149-06-06) is stored and read back as the same date; dates outside that range are not silently turned into other dates.", "quantifier": "all dates", "why_tests_cant": "All days, and out-of-range input.", "anchors": ["src/types/date_converter.rs: DateConverter", "src/types/column/date.rs: DateColumnData", "src/types/value.rs: From<NaiveDate>"]}
{"id": "C41", "title": "Reading a date does not depend on the time zone", "statement": "A Date cell read through get and through the typed column iterator is the same date, in every server time zone.", "quantifier": "all dates, all zone offsets", "why_tests_cant": "Time zones west of Greenwich are rarely in test setups.", "anchors": ["src/types/column/iter/mod.rs: DateIterator", "src/types/from_sql.rs: FromSql for NaiveDate"]}
{"id": "C42", "title": "Sub-second timestamps convert exactly", "statement": "Converting a DateTime64 cell of precision p to a point in time and back gives the same cell value, for all p from 0 to 9 and all representable times, before and after 1970.", "quantifier": "all 64-bit tick counts, all precisions 0..9", "why_tests_cant": "2^64 x 10 combinations; negative values are rarely tested.", "anchors": ["src/types/column/datetime64.rs: from_datetime, to_datetime, to_datetime_opt"]}
{"id": "C43", "title": "Decimals print their value", "statement": "The text of a decimal with scale s is the exact decimal expansion of mantissa / 10^s, for every mantissa, negative ones included.", "quantifier": "all 64-bit mantissas, all scales 0..18", "why_tests_cant": "2^64 x 19 combinations.", "anchors": ["src/types/decimal.rs: decimal2str, Display for Decimal"]}
{"id": "C44", "title": "Decimal equality is numeric equality", "statement": "Two decimals compare equal exactly when mantissa/10^scale are equal rationals; comparing never panics.", "quantifier": "all pairs of mantissas and scales", "why_tests_cant": "All pairs.", "anchors": ["src/types/decimal.rs: PartialEq for Decimal"]}
{"id": "C45", "title": "Rescaling a decimal keeps its value", "statement": "Changing a decimal to a larger scale keeps the numeric value exactly or fails; changing to a smaller scale truncates towards zero; storing into a 32-bit or 64-bit column never silently drops high digits.", "quantifier": "all mantissas and pairs of scales", "why_tests_cant": "All overflow boundaries.", "anchors": ["src/types/decimal.rs: set_scale", "src/types/column/decimal.rs: DecimalColumnData::push, DecimalAdapter::save"]}
{"id": "C46", "title": "Addresses and UUIDs survive the wire", "statement": "IPv4, IPv6 and UUID values written by the client are read back as the same address or UUID, through both the cell getter and the typed iterator.", "quantifier": "all 2^32, 2^128 and 2^128 values", "why_tests_cant": "Value space.", "anchors": ["src/types/column/ip.rs: Ipv4, Ipv6, Uuid, IpColumnData", "src/types/value.rs: From<Uuid>, decode_ipv4, decode_ipv6", "src/types/column/iter/mod.rs: Ipv4Iterator, Ipv6Iterator, UuidIterator"]}
{"id": "C47", "title": "Typed iteration agrees with cell access", "statement": "Iterating a column with the type that matches it yields exactly, in order, the values that reading each row individually yields, and skipping ahead by n in the iterator lands on the same row as n+1 calls to next.", "quantifier": "all columns, all positions", "why_tests_cant": "All lengths, nesting levels and skip sequences.", "anchors": ["src/types/column/iter/mod.rs: iterator!, StringIterator, NullableIterator, ArrayIterator", "src/types/block/mod.rs: Block::get"]}
{"id": "C48", "title": "Connection URLs mean what they say", "statement": "Each recognised URL parameter sets exactly its option to the parsed value; a malformed value is an error naming the parameter; any other parameter becomes a query setting; later duplicates win; durations in s and ms mean that many seconds or milliseconds.", "quantifier": "all parameter lists", "why_tests_cant": "All strings and orders.", "anchors": ["src/types/options.rs: set_params, parse_param, parse_duration, parse_opt_duration, parse_compression"]}
{"id": "C49", "title": "Map columns give back exactly what was put in", "statement": "After any sequence of maps has been appended to a map column, row i reads as the i-th map, for every key type ClickHouse allows; also after a round trip over the wire.", "quantifier": "all sequences of maps, all key and value types", "why_tests_cant": "Unbounded sizes and all key types.", "anchors": ["src/types/column/map.rs: MapColumnData", "src/types/value_ref.rs: Hash for ValueRef"]}
{"id": "C50", "title": "A decimal made from an integer denotes that integer", "statement": "Making a decimal of scale s from an integer of any width yields a decimal whose value is that integer, or fails.", "quantifier": "all integer types, values and scales", "why_tests_cant": "All values of all widths and all 19 scales.", "anchors": ["src/types/decimal.rs: Decimal::of, Base::scale"]}
{"id": "C51", "title": "Equal decimals hash alike", "statement": "Two decimals that compare equal feed the same data to a hasher, so that they are the same key of a hash map.", "quantifier": "all pairs of decimals", "why_tests_cant": "All pairs.", "anchors": ["src/types/decimal.rs: Hash for Decimal, PartialEq for Decimal"]}
{"id": "C52", "title": "Times survive DateTime columns", "statement": "Every point in time of whole seconds that ClickHouse's DateTime type can hold (1970 to 2106) is stored and read back as the same second; other times are not silently turned into other times.", "quantifier": "all points in time", "why_tests_cant": "All 2^32 seconds and everything outside.", "anchors": ["src/types/date_converter.rs: get_stamp for u32", "src/types/column/date.rs: DateColumnData::push"]}
{"id": "C53", "title": "An insert sends every row once and in order", "statement": "On a connection in step with the server, inserting a block sends, for each piece of it, the INSERT statement and then the piece followed by an empty block, and nothing else; the pieces are the rows of the block, cast to the columns the server describes, in order, none missing and none twice; afterwards the connection is in step again.", "quantifier": "all blocks, all numbers of rows, all servers that go along", "why_tests_cant": "Any number of rows and columns; more than a million rows for the second piece to exist.", "anchors": ["src/lib.rs: insert_, insert_tail_, insert_block_, send_insert_query_", "src/io/transport.rs: read_block", "src/types/block/chunk_iterator.rs"]}
{"id": "C54", "title": "Iterating by a wrong type is an error", "statement": "Asking a column for an iterator of a type that does not match it gives an error; an iterator never reads memory other than the column's data, and never takes data of one kind for another.", "quantifier": "all columns, all Rust types that can be iterated, all nesting", "why_tests_cant": "Undefined behaviour often goes unnoticed, and all combinations of nested types are too many.", "anchors": ["src/types/column/iter/mod.rs: Iterable::iter, DateIterator, Ipv4Iterator, ComplexIterator", "src/types/column/map.rs: get_internal", "src/types/column/concat.rs: get_internal"]}
{"id": "C55", "title": "A Rust value put in a row is read back as itself", "statement": "Whenever rows of Rust values are pushed into an empty block (row!, push, put), each value read back under its name or position as the type it was put as is the value put: numbers, strings, dates and times in range, decimals, UUIDs, addresses, enums, optional values, vectors and maps of any depth; a value that cannot be represented is refused rather than stored as something else.", "quantifier": "all lists of rows of values of all Rust types that can be put, maps nested to any depth", "why_tests_cant": "All values of all types, all nesting, all numbers of rows.", "anchors": ["src/types/value.rs: From<T> for Value, convert::From<Value> for T", "src/types/block/builder.rs: RowBuilder, RCons::apply, put_param", "src/types/from_sql.rs: FromSql"]}
{"id": "C56", "title": "A column made from a vector holds the vector's elements", "statement": "A column added from a vector of any supported element type (plain, optional, array, map) has as many rows as the vector, and row i reads back as element i; columns of another length than the block's are refused; elements that cannot be represented are refused rather than changed.", "quantifier": "all supported element types, all vectors, all numbers of columns", "why_tests_cant": "All vectors and values.", "anchors": ["src/types/column/mod.rs: ColumnFrom", "src/types/column/numeric.rs, string.rs, date.rs, ip.rs, nullable.rs, array.rs, map.rs, decimal.rs: column_from", "src/types/block/mod.rs: add_column, append_column"]}
{"id": "C57", "title": "A setting given in code reaches the server as that value", "statement": "After with_setting the options hold, under that name, the value given last, and the text sent to the server for it denotes exactly that value; other settings and options are unchanged.", "quantifier": "all option states, names and values of all accepted types", "why_tests_cant": "All integers, and all orders of calls.", "anchors": ["src/types/options.rs: with_setting, From<i32> for SettingType, From<i64> for SettingType, Display for SettingType"]}
{"id": "C58", "title": "A pool is made of its options", "statement": "Making a pool never panics; its bounds and addresses are those of the options, its attempts use each address in turn with the default port where none is given; for a malformed URL every attempt to connect reports the URL's error.", "quantifier": "all option sources, all numbers of attempts", "why_tests_cant": "All URLs and option values, including extreme ones.", "anchors": ["src/pool/mod.rs: Pool::new, get_addr", "src/types/options.rs: OptionsSource::get, parse_hosts", "src/lib.rs: Client::open", "src/connecting_stream.rs: ConnectingStream::new"]}
{"id": "C59", "title": "Time limits are the ones asked for", "statement": "An insert or execute that is ready within its time limit delivers its result, one that is not reports a timeout, and without a limit (none) it may take any time.", "quantifier": "all limits, all durations", "why_tests_cant": "All combinations of limits and durations; real time.", "anchors": ["src/lib.rs: with_timeout, execute_, insert_", "src/types/options.rs: parse_opt_duration, insert_timeout, execute_timeout"]}
{"id": "C60", "title": "Encryption asked for in the URL is not silently left out", "statement": "A URL with secure=true gives an encrypted connection or an error, in every build of the crate.", "quantifier": "all URLs, both settings of the feature tls", "why_tests_cant": "Needs builds with and without the feature, and all parameter lists.", "anchors": ["src/types/options.rs: set_params", "src/connecting_stream.rs: ConnectingStream::new"]}
{"id": "C61", "title": "Columns converted for an insert arrive with their contents", "statement": "When a column is inserted into a table column of another type to which it can be converted (strings and byte arrays to strings, fixed strings and addresses, decimals to other scales, enumerations to others, times to DateTime and DateTime64, plain columns to dictionaries, also inside arrays, nullables and aggregates), the server reads the table's type and, row for row, the same contents; contents with no counterpart there are an error.", "quantifier": "all columns of convertible types, all rows, all ranges of rows", "why_tests_cant": "Infinitely many columns, types and nestings; a cell that silently changes is only seen on the server.", "anchors": ["src/types/column/mod.rs: Column::cast_to", "src/types/column/fixed_string.rs: FixedStringAdapter, NullableFixedStringAdapter", "src/types/column/string.rs: StringAdapter", "src/types/column/decimal.rs: DecimalAdapter, NullableDecimalAdapter", "src/types/column/enums.rs: Enum8Adapter, Enum16Adapter", "src/types/column/chrono_datetime.rs: ChronoDateTimeAdapter"]}
{"id": "C62", "title": "Only listed conversions happen, the others are an error", "statement": "Inserting a column into a table column whose type is none of those it can be converted to fails with an error and sends nothing; converting to a possible type succeeds if every cell has a counterpart; nothing panics.", "quantifier": "all columns, all types", "why_tests_cant": "All pairs of types of any nesting, and all contents.", "anchors": ["src/types/column/mod.rs: Column::cast_to", "src/types/column/column_data.rs: ColumnData::cast_to", "src/types/column/array.rs: cast_to", "src/types/column/map.rs: cast_to", "src/types/column/nullable.rs: cast_to", "src/types/column/simple_agg_func.rs: cast_to"]}
{"id": "C63", "title": "An inserted block arrives whole, converted and in pieces", "statement": "Inserting a block whose columns can be converted to those of the table sends blocks of at most the given number of rows with the block's names and the table's types, whose rows one after the other are the converted rows of the block; a block with another number of columns or with a column that cannot be converted is refused with an error.", "quantifier": "all blocks, all headers, all piece sizes", "why_tests_cant": "Any number of columns, rows and pieces, any mix of conversions.", "anchors": ["src/types/block/mod.rs: Block::cast_to, chunks, write", "src/types/block/chunk_iterator.rs: ChunkIterator::next", "src/lib.rs: insert_, insert_tail_"]}
{"id": "C64", "title": "Times keep their fractions when inserted into DateTime64", "statement": "A chrono time inserted into a DateTime64(p) column arrives as the last tick of that precision not after it.", "quantifier": "all times, all precisions, all ranges of rows", "why_tests_cant": "All instants and precisions, including before 1970.", "anchors": ["src/types/column/chrono_datetime.rs: ChronoDateTimeAdapter::save", "src/types/column/datetime64.rs: from_datetime"]}
{"id": "C65", "title": "Copies of blocks are independent", "statement": "Cloning a block or column copies only pointers to its storages, and chunks, concatenations and blocks that take columns of others point into them; whatever a program then does with one of the blocks, it reads from every block what it would read if each had been copied whole: steps on one block change no other, and a pushed field is one more row and changes no other row.", "quantifier": "all programs of any length over any number of blocks: making, cloning, dropping, pushing, moving columns, slicing, concatenating", "why_tests_cant": "Aliasing through Arc at any depth, in all orders of operations.", "anchors": ["src/types/column/mod.rs: Column::push, clone, slice, concat", "src/types/block/mod.rs: clone, append_column, concat", "src/types/block/chunk_iterator.rs: next", "src/types/column/nullable.rs: push, clone_instance", "src/types/column/array.rs: push, clone_instance", "src/types/column/map.rs: push, clone_instance", "src/types/column/low_cardinality.rs: push, clone_instance", "src/types/column/simple_agg_func.rs: push, clone_instance"]}
{"id": "C66", "title": "Copies can be pushed to as the original could", "statement": "Pushing a value to a block that shares storage with others does what pushing it to a copy that shares nothing does: it succeeds, fails or panics alike.", "quantifier": "all blocks, all columns, all programs that led to them", "why_tests_cant": "All ways in which storage can be shared.", "anchors": ["src/types/column/mod.rs: Column::push", "src/types/column/nullable.rs: push, clone_instance", "src/types/column/array.rs: push, clone_instance", "src/types/column/map.rs: push, clone_instance", "src/types/column/low_cardinality.rs: push, clone_instance", "src/types/column/simple_agg_func.rs: push, clone_instance"]}
{"id": "C67", "title": "Iterating over a block gives each of its rows once", "statement": "Iterating over the rows of a block gives one row for every row of the block, in order, then nothing; the i-th has the names and types of the columns and, by position and by the first column of a name, the values of row i; an unknown name is an error. Rows of Rust values that were pushed come back in order with their values.", "quantifier": "all blocks with columns of equal length, all rows, all getters", "why_tests_cant": "Any number of rows and columns of any types; an iterator that skips or repeats a row at some size passes small tests.", "anchors": ["src/types/block/mod.rs: Block::rows", "src/types/block/row.rs: Rows::next, Row::get, len, is_empty, name, sql_type"]}
{"id": "C68", "title": "Streaming the rows of a query gives what fetching it gives", "statement": "Polling the stream of rows of a query until its end gives exactly the rows of the blocks after the describing first one, in order, however the messages arrive and whatever empty blocks and other messages come between; they are the rows of the block that fetch_all gives. A server's exception comes after the rows before it and ends the stream.", "quantifier": "all queries, all responses, all ways they arrive, all handles", "why_tests_cant": "All interleavings of arrival and polling, any number of blocks of any size.", "anchors": ["src/types/query_result/mod.rs: QueryResult::stream, stream_rows", "src/types/query_result/stream_blocks.rs: poll_next", "src/types/block/row.rs: Rows::next"]}
{"id": "C69", "title": "Whatever a server sends, the client does not crash", "statement": "For every byte string received as a message, reading it gives a message, asks for more bytes or reports an error; it never panics.", "quantifier": "all byte strings, all revisions and time zones", "why_tests_cant": "The bytes are the peer's: any lengths, counts, flags, offsets and type names, in any combination.", "anchors": ["src/binary/parser.rs: parse_packet", "src/types/block/mod.rs: raw_load, append_column", "src/types/column/factory.rs: load_data", "src/types/column/array.rs: load", "src/types/column/low_cardinality.rs: read_inner", "src/types/column/fixed_string.rs: len"]}
{"id": "C70", "title": "A refused row leaves the block as it was", "statement": "When pushing a row to a block reports an error, the block is what it was before; rows whose columns the block has are never refused.", "quantifier": "all blocks, all rows of any columns and values", "why_tests_cant": "Rows of any width with the wrong field anywhere, on any block.", "anchors": ["src/types/block/builder.rs: put_param, RowBuilder::apply", "src/types/block/mod.rs: Block::push"]}
{"id": "C71", "title": "Dates and times print as what they are", "statement": "Every Date cell prints as its date in the Gregorian calendar (YYYY-MM-DD), every DateTime cell as date and time of day in the zone of its column, and every DateTime64 cell of precision up to nine that can be read (C42) as date and time of the second in which it lies.", "quantifier": "all days of the type, all seconds of the type, all ticks that can be read, all zones", "why_tests_cant": "65536 days over 179 years with leap years and century rules, 2^32 seconds in every zone.", "anchors": ["src/types/value_ref.rs: Display for ValueRef", "src/types/value.rs: Display for Value"]}
{"id": "C72", "title": "Different cells of a column print differently", "statement": "Two cells of the same column that print the same text are the same.", "quantifier": "all types of any nesting, all pairs of cells", "why_tests_cant": "Pairs of values of unbounded nested types.", "anchors": ["src/types/value_ref.rs: Display for ValueRef", "src/types/decimal.rs: Display", "src/types/enums.rs: Display"]}
{"id": "C73", "title": "A value prints as the cell it becomes", "statement": "Value and ValueRef of the same content print the same text, with and without the flag #.", "quantifier": "all values of any nesting", "why_tests_cant": "Values of unbounded nested types.", "anchors": ["src/types/value_ref.rs: Display for ValueRef", "src/types/value.rs: Display for Value"]}
{"id": "C74", "title": "Printing a block gives a table that shows every cell", "statement": "The debug text of a block is a sequence of lines of the same number of characters: a rule, the titles, and, if there are rows, a rule and a line for every row, and a rule; the texts of a column stand in boxes of the same width below one another, right aligned.", "quantifier": "all blocks with any number of columns and rows of any types whose cells print on one line, any characters", "why_tests_cant": "Any widths, any multi-byte characters, any number of rows and columns.", "anchors": ["src/types/block/mod.rs: Debug for Block, column_width, print_line, text_cells"]}
{"id": "C75", "title": "A typed iterator announces how many items it still gives", "statement": "At every moment between calls of next and nth, len, size_hint and count of a typed iterator say how many items it will still give, and at the start that is the number of rows of the column.", "quantifier": "all item types of any nesting, all columns, all sequences of calls", "why_tests_cant": "collect() allocates by these numbers and unsafe code may trust them; types and columns nest without bound.", "anchors": ["src/types/column/iter/mod.rs: ExactSizeIterator::len, size_hint, count"]}
{"id": "C76", "title": "Any address that accepts is enough to connect", "statement": "A client connects to a host with several addresses as soon as one of them accepts; it reports an error only when all have failed, and then the error of one of them; until then it keeps waiting and never panics. A host without addresses, or one that cannot be resolved, is an error at once.", "quantifier": "all numbers of addresses, all orders in which they answer, all numbers of polls", "why_tests_cant": "The attempts interleave in any order and number.", "anchors": ["src/connecting_stream.rs: ConnectingStream::new, State::poll"]}
{"id": "C77", "title": "Asking for TLS gives TLS", "statement": "A connection opened with secure=true is handed out only when it is encrypted, over a connection that one of the addresses accepted, after a handshake under the host name of the URL and with skip_verify and certificate of the options; if an address accepts and handshakes succeed, it is. TLS errors are those of the setup or that handshake.", "quantifier": "all addresses, all orders of events, all options, all outcomes of setup and handshake", "why_tests_cant": "Needs every interleaving of attempts and every failure of the handshake.", "anchors": ["src/connecting_stream.rs: new_tls_connection, State::poll"]}
{"id": "C78", "title": "Timeouts do not change results", "statement": "An operation under a timeout gives its own result, success or error, and the driver's timeout error when it is too late, with either runtime.", "quantifier": "all results of all operations, both runtimes", "why_tests_cant": "All kinds of errors under two features, one of which is never compiled together with the other.", "anchors": ["src/lib.rs: with_timeout", "src/errors/mod.rs: From<Error> for io::Error, From<Elapsed>"]}
{"id": "C79", "title": "A pool that nobody uses any more goes away", "statement": "When the program has dropped every handle, every Pool and every GetHandle of a pool, the pool is freed and its idle connections are closed.", "quantifier": "all histories of a pool on a single-threaded executor: any tasks, any connections opened, failed, given back and lost", "why_tests_cant": "Depends on how connections being opened and connections coming back overlap, over histories of any length.", "anchors": ["src/pool/mod.rs: new_connection, take_conn, return_conn, PoolBinding", "src/lib.rs: Client::open"]}
{"id": "C80", "title": "Rows can be added to a received block", "statement": "Rows pushed onto a block that was read from a server leave its cells as they are and are found after them, and the larger block can be sent and read.", "quantifier": "all byte streams that are read as a block, all column types and nesting, any number of rows with their fields in any order", "why_tests_cant": "The state a column is left in by loading differs from the one appending builds: dictionaries, offsets and index widths chosen by the server.", "anchors": ["src/types/block/builder.rs: put_param", "src/types/column/low_cardinality.rs: push, LowCardinalityIndex::push", "src/types/column/factory.rs: load_data"]}
{"id": "C81", "title": "What a program inserts it gets back", "statement": "Rows of Rust values made into a block, inserted into a table whose columns have their types, and fetched again by a query on the same connection come back after the rows that were there before, in order, each field equal to what was put in, except that times are in the server's zone and without fractions of a second. Fields are numbers, strings, byte strings, dates (1970-2149), times (1970-2106), UUIDs, IPv6 octets, decimals of precision at most 18, vectors of strings and of numbers, maps from integers or strings without times inside, and options of these; more than 1048576 rows at once only without arrays and maps; no buffer is larger than Rust allows.", "quantifier": "all rows, any number of fields and rows, with and without compression, all servers that describe the table, take blocks and give back the rows of the blocks they were sent, in any blocks", "why_tests_cant": "A whole round trip through row building, type conversion, splitting, compression, framing, the protocol and concatenation; values and block boundaries are unbounded.", "anchors": ["src/lib.rs: insert, query", "src/types/block/mod.rs: push, cast_to, chunks, concat", "src/types/query_result/mod.rs: fetch_all", "src/types/from_sql.rs", "src/types/value.rs"]}
{"id": "C82", "title": "A connection on which an operation failed is not used again", "statement": "When a check, a greeting, a statement, an insert or a query fails because a message cannot be read or the socket reports an error, the handle afterwards no longer has that connection: nothing more is sent on it and nothing that arrives on it is delivered.", "quantifier": "all servers, all messages before and after the failure, all settings of check and retries", "why_tests_cant": "Needs a failure at an arbitrary point of a response and a look at what the handle does afterwards; a connection kept out of step shows only in a later operation.", "anchors": ["src/types/query_result/stream_blocks.rs: BlockStream::poll_next, drop", "src/lib.rs: ping, hello, execute, insert_", "src/retry_guard.rs: retry_guard"]}
{"id": "C83", "title": "Sending comes to an end", "statement": "Whatever the socket does, sending the queued commands returns to its caller after finitely many writes: with a result, with an error, or because the socket is not ready.", "quantifier": "all sockets (infinite sequences of write results), all queues of commands and partly written buffers", "why_tests_cant": "Concerns infinite behaviours; a loop that never returns is not an outcome a test can observe, and test sockets accept bytes.", "anchors": ["src/io/transport.rs: send, wr_flush"]}
{"id": "C84", "title": "A block that is written with compression is read back", "statement": "Writing a block with compression either gives bytes from which the same block is read back, or reports an error.", "quantifier": "all blocks of any size, all LZ4 codecs that give back what they compressed, bytes of any kind behind the frame", "why_tests_cant": "The limits lie at one and at two gigabytes; a test would need blocks of that size and the memory for several copies of them.", "anchors": ["src/types/block/mod.rs: write, load", "src/types/block/compressed.rs: CompressedReader::fill, decompress_buffer"]}
{"id": "C85", "title": "Totals and extremes are told apart from rows", "statement": "A program that reads an answer can tell the block with the totals (WITH TOTALS) and the block with the extremes from the blocks with the rows of the result.", "quantifier": "all messages with totals or extremes, all encodings of the message's number, all contents", "why_tests_cant": "Tests against a server rarely ask for totals or extremes, and the extra rows look like rows of the result.", "anchors": ["src/binary/parser.rs: parse_packet", "src/binary/protocol.rs: SERVER_TOTALS, SERVER_EXTREMES"]}
{"id": "C86", "title": "A server's blocks are read as the cells it sent", "statement": "A message whose block is laid out in the server's own format (its header, and each column with its name, the server's name of its type and its cells in the native format), plain or cut into compressed frames, is read as a block with that header, those names and types and exactly those cells.", "quantifier": "all types the client knows, nested in any way; all numbers of rows and columns; all cells; every numbering of dictionaries; every cut into frames; every encoding of the numbers; the types named as a server names them, with or without a time zone", "why_tests_cant": "The tests of the library read back what the library itself wrote or compare a few recorded answers; a format that differs from the server's for some nesting of types goes unnoticed.", "anchors": ["src/types/column/factory.rs: load_data and the parsers of type names", "src/types/column/array.rs: load", "src/types/column/low_cardinality.rs: load", "src/types/column/nullable.rs: load", "src/types/column/map.rs: load", "src/types/block/mod.rs: load, raw_load", "src/binary/parser.rs: parse_block"]}
{"id": "C87", "title": "Every cell of a received block can be read", "statement": "When a block has been received, each of its cells can be read, and it is a value of its column's type; a server's block for which this cannot be so is refused when it is received.", "quantifier": "all bytes a server may send as a block, all types nested in any way, all rows and columns", "why_tests_cant": "Tests read well-formed columns; offsets that decrease, indices beyond a dictionary or booleans other than 0 and 1 do not occur in them.", "anchors": ["src/types/column/factory.rs: load_data", "src/types/column/array.rs: load, at", "src/types/column/map.rs: load, at", "src/types/column/low_cardinality.rs: load, at", "src/types/column/numeric.rs: load"]}
{"id": "C88", "title": "An operation succeeds only when the server says so", "statement": "A check of the connection succeeds only if the server answers it with a Pong; a statement, a fetched query or a stream of a query that ends without an error succeeds only if the server's answer came to its end (EndOfStream) and held nothing but data, progress and profile messages before it, and the query's result is then made of exactly the data blocks of that answer, never of a part of it.", "quantifier": "all servers (any answers to any commands, whole or in two parts, closing or not), all queries, all retries before it, all numbers of polls of a stream", "why_tests_cant": "Tests have servers that answer correctly; an answer cut off at any of its messages, or with a message that does not belong there, is taken for a short result only if some path forgets to look for the end.", "anchors": ["src/lib.rs: ping, execute", "src/types/query_result/mod.rs: fetch_all, stream_blocks", "src/types/query_result/stream_blocks.rs: poll_next", "src/io/transport.rs: PacketStream::poll_next"]}
{"id": "C89", "title": "An insert succeeds only when the server has taken all of it", "statement": "An insert succeeds only if the server has described the columns for every statement and has acknowledged every piece of the block with the end of its answer.", "quantifier": "all servers that answer a command with one message (columns, end, exception, something unreadable, nothing), after any descriptions of columns; all blocks and pieces", "why_tests_cant": "Needs a server that refuses the data in an unusual way; in tests every insert is accepted.", "anchors": ["src/lib.rs: insert_, insert_tail_, send_insert_query_, insert_block_", "src/io/transport.rs: read_block, PacketStream::poll_next"]}
{"id": "C90", "title": "Dates and times wrap at the limits of their columns and are otherwise kept", "statement": "A date put in a Date column is read back as the date with the same number of days since 1970 modulo 65536, and a time put in a DateTime column as the whole second with the same number of seconds modulo 2^32; so exactly the dates from 1970-01-01 to 2149-06-06 and the whole seconds of 1970 to 2106 are read back as themselves. The other cells stay as they were.", "quantifier": "all dates, all times with or without fractions, all columns of any length and zone", "why_tests_cant": "Tests use a few dates of these decades; where exactly the limits lie and what happens beyond them takes all values.", "anchors": ["src/types/date_converter.rs: get_days, to_date", "src/types/column/date.rs: push, at", "src/types/value.rs: From<NaiveDate>, From<Value>"]}
{"id": "C91", "title": "Comparing decimals is numeric equality or fails", "statement": "Comparing two decimals gives whether they are the same number, exactly when the mantissa of the one with the smaller scale, brought to the larger scale, fits 64 bits; otherwise the comparison panics.", "quantifier": "all mantissas, all pairs of scales up to 18, all precisions and widths", "why_tests_cant": "The pairs that overflow are few and far from the small numbers in tests.", "anchors": ["src/types/decimal.rs: PartialEq for Decimal"]}
{"id": "C92", "title": "Reading a DateTime64 gives the exact instant or fails", "statement": "Reading a tick count of precision up to 9 gives the instant it stands for, in whole seconds and nanoseconds, exactly when its number of nanoseconds fits 64 bits and it is not before 1970 with a fraction of a second; otherwise it panics. A precision of 10 to 18 always panics, one of 19 or more always gives 1970-01-01 00:00:00.", "quantifier": "all tick counts, all precisions", "why_tests_cant": "Needs instants at the limits of 64 bits and before 1970, at every precision.", "anchors": ["src/types/column/datetime64.rs: to_datetime, to_datetime_opt"]}
{"id": "C93", "title": "What a decimal column makes of a decimal", "statement": "A decimal put in a column is read back with the column's scale and precision and the same mantissa, of which a 32-bit column keeps the low 32 bits; so it stays the same number exactly when it is zero, or has the column's scale and (in 32-bit columns) a mantissa of 32 bits.", "quantifier": "all 64-bit mantissas, all scales and precisions, both widths, columns of any length", "why_tests_cant": "Tests push decimals of the column's own scale and small mantissas; that no other scale happens to work out needs all of them.", "anchors": ["src/types/column/decimal.rs: push, at", "src/types/decimal.rs: internal"]}
{"id": "C94", "title": "A release build gives the answers of a debug build", "statement": "Where a build with overflow checks has an answer when comparing, rescaling or making a decimal, converting a DateTime64, reading a cell of any column or a compressed frame, a build without them (arithmetic that wraps around) has the same answer; on frames the two end in the same way on every input, except one that announces fewer bytes than its head has.", "quantifier": "all decimals, times, precisions, columns of any nesting, rows and byte strings", "why_tests_cant": "Tests run in one profile; that the other never differs where there is an answer is a statement about two programs on all inputs.", "anchors": ["src/types/decimal.rs", "src/types/column/datetime64.rs", "src/types/column/array.rs: at", "src/types/block/compressed.rs: decompress_buffer"]}
{"id": "C95", "title": "A release build never makes an answer out of an overflow", "statement": "In a build without overflow checks, comparing decimals and reading DateTime64 values give correct answers or fail; no received frame makes it call the decompressor with a negative length.", "quantifier": "all decimals with scales up to 18, all stored times and precisions, all byte strings", "why_tests_cant": "The test suite runs with overflow checks, where the same inputs panic.", "anchors": ["src/types/decimal.rs: eq, set_scale, of", "src/types/column/datetime64.rs: to_datetime_opt, from_datetime", "src/types/block/compressed.rs 104"]}
{"id": "C96", "title": "Equality of decimals is an equivalence in a release build", "statement": "In a build without overflow checks == on decimals with scales up to 18 always answers, and is reflexive, symmetric and transitive.", "quantifier": "all decimals that the public constructors make", "why_tests_cant": "Transitivity fails for mantissas that differ by a multiple of 2^46 only.", "anchors": ["src/types/decimal.rs 123-139"]}
{"id": "C97", "title": "The client sends nothing that a server does not expect", "statement": "Whatever a server answers, a connection carries only what the native protocol allows at that point: a hello first; then one ping, query or cancel at a time; a query followed by its external tables and the block that ends them; an INSERT then by blocks with columns and one block without columns. So two servers that differ only in their answers to anything else cannot be told apart, through any sequence of hello, ping, check, execute, insert, query, polling, dropping and reconnecting.", "quantifier": "all servers, handles, queries, blocks of any number of columns and rows, numbers of retries and points at which streams are dropped", "why_tests_cant": "Tests look at answers, not at what was sent; a server that tolerates or belatedly complains about an extra message hides it.", "anchors": ["src/lib.rs: hello, ping, execute, insert, insert_block, check_connection", "src/types/query_result/stream_blocks.rs", "src/types/block/chunk_iterator.rs"]}
{"id": "C98", "title": "What an operation reports is what the answer's first decisive message says", "statement": "On a connection in step, the result of greeting, pinging, executing a statement, fetching a query and each step of an insert is given by the first message of the answer that is not merely on the way (rows and progress; table columns for inserts): success at the end of the answer, the server's own exception, UnexpectedPacket for a message out of place, an I/O error for one that cannot be read, a timeout if nothing more comes, and if the connection is closed an error (ping, fetch) or a panic (the others). The connection stays in the handle in exactly the cases stated.", "quantifier": "all answers of any length, all queries, blocks, pieces, and connections in step", "why_tests_cant": "Each operation has some ten kinds of answers, after any number of messages on the way; tests see the successful ones.", "anchors": ["src/lib.rs: hello, ping, execute, insert_", "src/io/transport.rs: read_block", "src/types/query_result/stream_blocks.rs: poll_next"]}
{"id": "C99", "title": "The operations report the same over any socket that carries the answer's bytes", "statement": "Pinging, greeting, executing, reading one block and fetching all of a query, run on the transport and a socket, send exactly the command's bytes and give the result and the connection that the message-level model gives for the messages those bytes make up - however the reads and writes are cut into pieces, delayed, or (for the end) closed. A socket that fails while the command is written makes the operation an I/O error, one that takes no more of it a timeout.", "quantifier": "all commands, all answers (well-formed or not), all cuttings of the bytes into reads and writes, all pauses", "why_tests_cant": "A test has one cutting of the bytes per run, that of a local socket, where messages come whole.", "anchors": ["src/io/transport.rs 80-398", "src/lib.rs: hello, ping, execute", "src/types/query_result/stream_blocks.rs: poll_next"]}
{"id": "C100", "title": "A whole session on a socket reports what the messages of the server's answers make it report", "statement": "Take a pooled handle whose connection has been opened and is not checked before use, and let it ping, execute, fetch and insert in any order, as long as it has its connection. Let the network carry the answers of a server: it brings the bytes of each answer in whatever pieces and with whatever pauses, answers may stay unread or half-read from one operation to the next, and it takes what is written in whatever amounts. Then the results of all these operations on the socket are exactly those of the same operations on the messages of the answers, and what was written to the socket is the bytes of the commands that were given to it, one after the other in their order, and nothing else.", "quantifier": "every list of operations with every query and block, every server and every network that carries its answers (also one that closes the connection), every state the operations before left the connection in, for commands that can be encoded and answers that can be read", "why_tests_cant": "A test runs against one server over a network that cuts the bytes as it happens to; this is about every cut at every place of every session, and about what is left over from one operation to the next.", "anchors": ["src/io/transport.rs 80-408", "src/lib.rs: ping, execute, insert_", "src/types/query_result/mod.rs: fetch_all", "src/types/query_result/stream_blocks.rs"]}
{"id": "C101", "title": "Equality of values, cells and blocks is an equivalence that agrees with hashing", "statement": "Rust's Eq, which Value and ValueRef implement, promises an equivalence: a value equals itself; a equals b exactly when b equals a; values equal to the same value equal each other (unless comparing them panics). The same holds of blocks. Values that are equal feed a hasher the same bytes, so that the hash maps that hold dictionary entries and map cells find a key exactly if an equal one is in them.", "quantifier": "all pairs and triples of values of every type and nesting; all cells of all columns; all pairs and triples of blocks", "why_tests_cant": "Equality has a case per pair of types and recurses through options, arrays and maps, where order does not count; tests compare a few equal values of a few types, and no test compares three.", "anchors": ["src/types/value.rs 61-149", "src/types/value_ref.rs 58-124", "src/types/block/mod.rs 83-97", "src/types/column/mod.rs 90-104", "src/types/decimal.rs 123-139"]}
{"id": "C102", "title": "What each piece of a split insert carries of its rows", "statement": "A block is split for an insert into pieces of at most n rows. Every piece can be written, and what the receiver reads from its bytes has the names, types and number of rows of the piece; its cells are those rows (times in the receiver's zone), except that in a column of arrays or maps the first row of every piece is all rows of the whole column up to that row made into one: arrays concatenated, maps merged with later entries winning. So a piece of an array column is right exactly if all arrays before it are empty.", "quantifier": "every block of any number of rows and columns (columns without arrays and maps inside, and arrays and maps of anything), every piece size", "why_tests_cant": "Only an insert of more than 1,048,576 rows has a second piece; no error is reported when its first row is replaced.", "anchors": ["src/types/block/chunk_iterator.rs", "src/types/column/chunk.rs", "src/types/column/array.rs: save", "src/types/column/map.rs: save"]}
{"id": "C103", "title": "What any bytes are read as when compression is on", "statement": "With compression on, whatever bytes arrive are read as follows. The bytes at the front are an incomplete frame, an unreadable one, one on which the reader panics, or a frame with data, and which of these is decided by their positions: the method byte at 16 (as soon as it is there), the limit of 1 GB on the size at 17, the CityHash checksum of the first 16 bytes over as many bytes as that size says, a size of at least nine, a data size below 2^31 at 21, and LZ4 accepting the rest. The bytes are frames with data up to exactly one place. Reading anything from them gives exactly what reading it from the data of those frames gives (value, error or panic) and uses up the frames of which a byte was used; if the data does not suffice, the reader reports what is at that place: wait for more for an incomplete frame or one without data, an IO error for an unreadable one, a panic for one with a size below nine.", "quantifier": "all byte strings, all LZ4 decoders, all parsers", "why_tests_cant": "a test decompresses one recorded frame; that no other bytes are accepted, and that the frame boundaries never show in what is read, ranges over all byte strings and all ways of cutting the data.", "anchors": ["src/types/block/compressed.rs", "src/binary/read_ex.rs", "src/types/block/mod.rs"]}
{"id": "C104", "title": "Converting a decimal to a float gives the nearest float", "statement": "f64::from and f32::from of a decimal give the float of that format that is nearest to the decimal's value (of two equally near ones the one whose last bit is 0), with the decimal's sign.", "quantifier": "all decimals: every 64-bit number and every scale up to 18 (up to 10 for f32)", "why_tests_cant": "tests convert one decimal of three digits; whether two roundings, of the number and of the quotient, amount to one depends on all bits of the number and the scale.", "anchors": ["src/types/decimal.rs 166-176"]}
{"id": "C105", "title": "A decimal made of a float is the float cut to the scale", "statement": "Decimal::of of a finite float and a scale is the float's value with the digits after that many places cut off. What has no such decimal (NaN, the infinities and everything with more than 18 digits) is refused. Whole floats are kept exactly, and a decimal made into a float and made into a decimal again is what it was.", "quantifier": "all f32 and f64 values (every bit pattern), all scales up to 18 (up to 10 for f32), all decimals of up to 2^52 (2^23) in the last place", "why_tests_cant": "tests convert 0.8 and -0.8 and such; the product with the power of ten is rounded before it is cut, and which floats that harms is invisible in a handful of values.", "anchors": ["src/types/decimal.rs 72-86", "src/types/decimal.rs 166-176", "src/types/decimal.rs 194-211"]}
{"id": "C106", "title": "Printing options, pools and handles for debugging does not reveal the password", "statement": "The Debug output of options, of their source, of a pool and of a client handle, and the errors about a connection URL, do not depend on user name and password: whoever reads a log does not learn them.", "quantifier": "all options, all connection URLs, all pairs of them that differ in user name and password only", "why_tests_cant": "that something is not revealed is a statement about pairs of runs, for all values of the other fields; a test looks at one output.", "anchors": ["src/types/options.rs 32-40", "src/types/options.rs 275-294", "src/types/options.rs 495-631", "src/types/mod.rs 126-133", "src/pool/mod.rs 116-128", "src/lib.rs 245-251"]}
{"id": "C107", "title": "References to options handed out of their lock stay valid", "statement": "OptionsSource::get hands out a reference to options behind a mutex that outlives the lock. However often and by whomever get is called on clones of one source, everybody gets the same: a reference to the given options, to the options read from the URL, which is read once, or the same error. Every reference can be read through at any later time and gives those options. No URL, however malformed, makes get panic, which would poison the lock.", "quantifier": "all sources, all URLs and URL parsers, any number of calls before and after", "why_tests_cant": "a reference that dangles shows in a test only if the memory was reused in between; the claim ranges over all orders of calls.", "anchors": ["src/types/options.rs 20-58", "src/types/options.rs 495-677"]}
{"id": "C108", "title": "The shared copies of types are what they were made of, for ever", "statement": "Types inside types are 'static references into a global cache, made by transmuting. Whatever types are turned into references, in whatever order: each reference can be followed at any later time and leads to the type it was made of; two references are the same exactly if their types are; and the cache, which is never emptied, holds exactly one entry for each type that occurred (be it inside another one), but for the twelve constants.", "quantifier": "all sequences of types, of all nestings", "why_tests_cant": "a reference into a cache that moves or replaces its entries works until the cache grows; a test interns a few types.", "anchors": ["src/types/mod.rs 309-371", "src/types/value.rs 303", "src/types/column/nullable.rs 41", "src/types/column/array.rs 48"]}
{"id": "C109", "title": "Addresses and UUIDs are printed as the numbers they are on the wire", "statement": "A UUID is printed, as a cell and as an owned value, as RFC 4122 writes (lower-case hexadecimal digits in groups of 8, 4, 4, 4 and 12) the 128-bit number whose upper and lower half are the two little-endian numbers that go over the wire; an IPv4 address as the four decimal numbers, without leading zeros, from the most significant byte of its little-endian number.", "quantifier": "all 16-byte and 4-byte values", "why_tests_cant": "byte orders agree on palindromes and on the few values of a test; the claim is about all 2^128 values.", "anchors": ["src/types/value.rs 194-275", "src/types/value.rs 594-598", "src/types/value_ref.rs 125-200"]}
{"id": "C110", "title": "Parameters in type names are read as they are, or the name is refused", "statement": "A type name is read as FixedString(n) exactly if a decimal number n below 2^64 stands between the character after FixedString and the last one. A name whose parameters are not possible for its type is refused: a decimal with a scale above its precision or a precision above 18, numbers of an Enum8 or Enum16 outside of eight or sixteen bits, DateTime64 with more than nine digits.", "quantifier": "all byte strings as type names", "why_tests_cant": "tests parse some well-formed names; what is accepted besides them is a statement about all strings.", "anchors": ["src/types/column/factory.rs 64-114", "src/types/column/factory.rs 245-255", "src/types/column/factory.rs 313-517"]}
{"id": "C111", "title": "An error about a type says which type the cell has and which was asked for", "statement": "When a cell is refused because it is of another type than was asked for, the text of the error names the type of the cell, or of the part of it that is refused, and the Rust type asked for. The text of a server's error tells its name, code and message, and nothing else.", "quantifier": "all Rust types that can be read, nested to any depth, all cells, all errors of servers", "why_tests_cant": "tests look at one text, of a u16 read as a u32; names are made by macros, one by one, and go wrong one by one.", "anchors": ["src/types/from_sql.rs 26-365", "src/types/value_ref.rs 245-271", "src/errors/mod.rs 15-121"]}
{"id": "C112", "title": "Operations end in the time that is set for them", "statement": "Connecting, pings, fetch_all, execute and insert end by the time set for each, whatever the server does: with their own result if it is there by then, and with a timeout error otherwise. With no time set (none) execute and insert are left to end by themselves. The check of a connection before a query ends within a time given by its settings: two pings, send_retries + 1 openings and send_retries pauses.", "quantifier": "all options, all operations that take any time or never end, all sequences of failing and succeeding pings and openings", "why_tests_cant": "tests run against servers that answer at once; what happens to one that does not end is a claim about all durations.", "anchors": ["src/lib.rs 255-302", "src/lib.rs 331-366", "src/lib.rs 381-478", "src/lib.rs 575-593", "src/lib.rs 623-642", "src/retry_guard.rs 7-68", "src/types/query_result/mod.rs 28-49"]}
{"id": "C113", "title": "Reading from the socket exposes no unwritten memory and mistakes no full buffer for the end", "statement": "Bytes are read into a vector whose length is raised to its capacity before anything was written there. However much room the allocator gives and however the bytes arrive: after each read the vector holds exactly what it held before and what was read since, all of it written; the result is that of reading into unlimited room; an end is reported only if the stream has ended; nothing is written outside of the memory that the vector had or was given. This is also so when the socket is not ready or fails midway.", "quantifier": "all vectors, all capacities the allocator may choose, all sequences of socket events", "why_tests_cant": "unwritten memory is often zero and looks like data that was read; whether a buffer is full at the moment the peer pauses depends on timing.", "anchors": ["src/io/read_to_end.rs 11-57"]}
{"id": "C114", "title": "Who asks the pool while a connection is idle gets it", "statement": "A task that asks the pool for a connection while one is idle gets the one that has been idle for longest, at once and without a new connection being opened.", "quantifier": "all histories of a pool that is used by one thread at a time, all sizes of pools", "why_tests_cant": "whether another task's attempt to connect has just failed when one asks is a matter of timing; the error looks like one of one's own.", "anchors": ["src/pool/mod.rs: Pool::poll, handle_futures, take_conn"]}
{"id": "C115", "title": "A task waits for a connection only while one is being opened for it or all are in use", "statement": "With one thread at a time, asking the pool comes to an end at once: the task is given a connection, is told that an attempt has failed, or waits. When it waits, an attempt to connect is under way that wakes it, or as many connections are in use as the pool may have; so a pool with room never lets a task wait without opening a connection.", "quantifier": "all histories of a pool that is used by one thread at a time, all sizes of pools", "why_tests_cant": "a task that waits for nothing shows only as a program that hangs, in the state in which it asked.", "anchors": ["src/pool/mod.rs: Pool::poll, handle_futures, take_conn, conn_count", "src/pool/futures/get_handle.rs"]}
{"id": "C116", "title": "Copying cells into owned values and back loses nothing and does not panic", "statement": "Every cell of every column can be turned into an owned value (From<ValueRef> for Value), which is the same value, nested values and the entries of maps included. Every owned value can be borrowed as a cell (From<&Value> for ValueRef), which is the same value; owning what was borrowed gives the first value back.", "quantifier": "all cells of all columns, all values of every type and nesting", "why_tests_cant": "maps are built anew entry by entry, by the hashes of another type with other cases; a test with keys of one type says nothing of the others.", "anchors": ["src/types/value_ref.rs 273-325", "src/types/value_ref.rs 370-423", "src/types/value_ref.rs 58-75", "src/types/value.rs 61-81"]}
{"id": "C117", "title": "Whenever the client waits for bytes, there are bytes that end the wait", "statement": "Whatever bytes have arrived of a message, right or wrong: when reading it says that more are needed, there are further bytes with which reading ends, in a message, an error or a panic. So bytes that no continuation can make into a message are never waited on.", "quantifier": "all bytes of any length (below 2^63), all revisions and time zones, all messages, all types of columns", "why_tests_cant": "a client that waits for nothing looks like a slow server; the states in which it would are cut points in malformed messages.", "anchors": ["src/io/transport.rs 156-198", "src/binary/parser.rs 35-175", "src/binary/read_ex.rs 25-105", "src/types/block/mod.rs 156-184", "src/types/block/compressed.rs"]}
{"id": "C118", "title": "A few bytes from a server do not make the client set up a huge buffer", "statement": "Whatever bytes have arrived of a message: the piece that the client waits for, for which it has set up a buffer of that size, is of at most a gigabyte, the limit that the reader of compressed frames sets.", "quantifier": "all bytes of any length, all revisions and time zones, with and without compression, all types of columns", "why_tests_cant": "the sizes that matter are the ones no honest server sends, and a test that asks for them dies with the process.", "anchors": ["src/binary/read_ex.rs 53-105", "src/types/block/compressed.rs 17, 64-93", "src/binary/parser.rs 35-175", "src/types/column/string_pool.rs 54-104", "src/types/column/fixed_string.rs 35-50"]}
