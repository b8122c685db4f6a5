# Design: a Rocq model of clickhouse-rs

The subject is the client library in `/repo` (Rust). The model is a set of total, computable Gallina
functions that follow the Rust functions one by one, and theorems about those functions. Only Coq's
standard library is used.

## 1. Layers and files (`rocq/theories`)

Model files hold definitions only and cite the lines of `/repo` they follow. `Spec*.v` files hold what the
theorems are stated with and import no proofs. `*Proofs.v` files hold lemmas. `Prop*.v` files hold the
property theorems (`cNN_…` belongs to property CNN), each followed by `Print Assumptions` and by an
`Example` that meets its hypotheses.

| model | of | specification, lemmas | theorems |
|---|---|---|---|
| `Base.v` | results with explicit panics, byte strings, indexing and slicing as in Rust | | |
| `Bytes.v` | little-endian integers, two's complement, bool: `marshal.rs`, `unmarshal.rs`, `stat_buffer.rs` | `SpecWire` | `PropWire` |
| `Utf8.v` | `str::from_utf8` | `SpecWire`, `Utf8Proofs` | `PropWire` |
| `Reader.v` | readers as programs asking for n bytes, run on a cursor or on decompressed frames | `ReaderProofs` | `PropPackets` |
| `Wire.v` | varints, strings, scalars: `uvarint.rs`, `encoder.rs`, `read_ex.rs` | `SpecWire`, `WireProofs` | `PropWire` |
| `Types.v`, `Text.v`, `TypeNames.v` | `SqlType`, its printer and the type-name parsers: `types/mod.rs`, `factory.rs`, `enums.rs`, `decimal.rs` | `SpecTypes`, `TextProofs`, `TypeNamesProofs`, `LoadTypeProofs` | `PropTypes` |
| `Decimal.v` | `types/decimal.rs` | `SpecNum`, `DecimalProofs` | `PropDecimal` |
| `DateTime.v` | `datetime64.rs`, `date_converter.rs` | `SpecNum` | `PropTime` |
| `Values.v` | `value.rs`, `value_ref.rs`: values, equality, hashing support, conversions | | `PropBlocks`, `PropColumns` |
| `Columns.v` | every column storage: `len/at/push/save/load`, adapters, chunks, concatenation: `types/column/*.rs` | `SpecColumns`, `PushProofs`, `ConcatProofs`, `SendProofs`, `RangeProofs` | `PropColumns`, `PropConcat`, `PropBlocks` |
| `StringPool.v` | `string_pool.rs` with its chunks and pointers | `StringPoolProofs` | `PropStrings` |
| `Casts.v` | `Column::cast_to` and `ColumnData::cast_to` | `SpecCasts`, `CastProofs`, `CastSendProofs`, `CastMainProofs`, `CastBlockProofs`, `CastTotalProofs`, `AppendCastProofs` | `PropCasts`, `PropAppendCast` |
| `Block.v` | `types/block/*.rs`: header, rows, chunks, writing and reading, lookup, equality | `SpecBlock`, `BlockProofs`, `BlockOpsProofs` | `PropBlocks` |
| `CityHash.v`, `Compress.v` | `compressed.rs` and the hash it uses | `SpecCompress`, `CompressProofs` | `PropCompress` |
| `Packets.v` | `parser.rs` (server messages), `cmd.rs`, `client_info.rs` (client messages) | `SpecPackets`, `PacketsProofs` | `PropPackets` |
| `Transport.v` | `io/transport.rs`, `read_to_end.rs`: polling, sending, `PacketStream` | `SpecTransport`, `TransportProofs` | `PropTransport` |
| `Client.v` | `lib.rs`, `query_result/*.rs`, `retry_guard.rs`: query, insert, execute, ping, handles | `SpecClient`, `ClientProofs` | `PropClient` |
| `Pool.v` | `pool/mod.rs`, `get_handle.rs` as atomic steps of any number of threads | `SpecPool`, `PoolProofs` | `PropPool` |
| `FromSql.v` | `from_sql.rs`: reading cells as Rust types | `SpecFromSql`, `FromSqlProofs` | `PropCells` |
| `Iter.v` | `column/iter/mod.rs`: typed iterators over memory | `SpecIter`, `IterProofs`, `IterMoreProofs` | `PropIter` |
| `ToSql.v` | `Value::from`, `ColumnFrom`, `RowBuilder`: Rust values into rows and columns | `SpecToSql`, `ToSqlProofs`, `ColumnFromProofs` | `PropToSql` |
| `Options.v` | `options.rs`, `Pool::new`, settings, time limits | `SpecOptions`, `OptionsProofs` | `PropOptions` |
| `Sharing.v` | columns and blocks as pointers into shared storage: `Column::push`, `clone_instance`, cloning, slicing, concatenating | `SpecSharing`, `SharingProofs`, `ShareBlockProofs`, `ShareStepProofs`, `ShareMoreProofs` | `PropSharing` |
| `Rows.v` | rows of blocks and of queries: `Rows::next`, `Row`'s getters, `QueryResult::stream` | `SpecRows`, `RowsProofs`, `RowsConcatProofs` | `PropRows` |
| (no new model) | which type names and which data make the client panic | `SpecNames`, `Utf8SliceProofs`, `NamesProofs`, `LoadPanicProofs` | `PropNames` |
| `Refuse.v` | what `Block::push` leaves in the block when it reports an error | `SureProofs` | `PropRefuse` |
| `Print.v` | texts: `Display` of `Value`, `ValueRef`, enumerations, `Debug` of `Block` | `SpecPrint`, `PrintProofs`, `ClearProofs`, `TableProofs` | `PropPrint` |
| `IterLen.v` | what typed iterators announce: `len`, `size_hint`, `count` | (none) | `PropIterLen` |
| `Connect.v` | opening connections (connecting_stream.rs), `with_timeout` and its conversions of errors | `SpecConnect`, `ConnectProofs` | `PropConnect` |
| `PoolFree.v` | who holds a reference to the pool | `SpecPoolFree` | `PropPoolFree` |
| (no new model) | loading, then appending, then sending | `SpecReceived`, `ReceivedProofs` | `PropReceived` |
| (no new model) | a table kept by a server: insert, then query | `SpecTable`, `SpecKeep`, `KeepProofs`, `KeepValueProofs` | `PropKeep` |
| (no new model) | connections after failures; sockets that go on for ever | (in the property files) | `PropBroken`, `PropSpin` |
| (no new model) | the pool with at most k threads at a time | `SpecPoolMany` | `PropPoolMany` |
| (no new model) | frames beyond the limits of LZ4 and of the reader; totals and extremes | (in the property files) | `PropFrames`, `PropTotals` |
| (no new model) | the native format of a server, byte by byte | `SpecNative`, `ServerNamesProofs`, `NativeProofs` | `PropNative` |
| (no new model) | reading the cells of whatever was received | `SpecReadable`, `ReadableProofs` | `PropReadable` |
| (no new model) | what the server has said when an operation succeeds | (in the property files) | `PropHonest`, `PropInsertHonest` |
| (no new model) | what becomes of every date, time and decimal | `SpecNum` | `PropExact` |
| `Release` | decimals, DateTime64, cells and frames in a build without overflow checks | (in the property file) | `PropRelease` |
| (no new model) | what a server is prepared to receive, and that nothing else is sent | `SpecProtocol`, `CastLenProofs` | `PropProtocol` |
| (no new model) | what each operation reports, for every answer | (in the property file) | `PropOutcome` |
| `Wired` | the operations on the transport and a socket; the messages of Client as bytes | `SpecWired`, `WiredProofs` | `PropWired` |
| `Session` | a program using one connection over its socket, operation after operation | `SpecSession` | `PropSession` |
| `Hashes` | what values and cells feed a hasher | `SpecEquality`, `EqualityProofs` | `PropEquality` |
| (no new model) | what each piece of a split insert carries | `SpecPieces`, `PiecesProofs` | `PropPieces` |
| (no new model) | what any bytes are read as when compression is on | `SpecFrames`, `FramesProofs` | `PropUnpack` |
| `Floats` | decimals made of floats and floats made of decimals | `SpecFloats`, `FloatsProofs` | `PropFloats` |
| (no new model) | the check before an operation, exactly | `SpecRetry` | `PropRetry` |
| (no new model) | malformed decimals and decimals of integers, exactly | | `PropDecimals` |
| (no new model) | which strings and times print alike, exactly | | `PropTexts` |
| `Debugs` | what `Debug` shows of options, pools and handles | `SpecDebugs` | `PropDebugs` |
| (no new model) | names, dates, times and decimals as they are stored, exactly | | `PropStored` |
| `SourceCell` | the memory that clones of an options source share | | `PropReferences` (C107) |
| `Interning` | the cache of types with its memory | `SpecInterning` | `PropInterning` (C108) |
| (no new model) | blocks of 4 GB and more with compression | | `PropWrapped` (C84) |
| (no new model) | the text of addresses and UUIDs, and the parameters in type names | `SpecCanonical` | `PropCanonical` (C109, C110, C58) |
| `Messages` | what errors about types and errors of the server say | `SpecMessages` | `PropMessages` (C111) |
| `Deadlines` | how long operations and the check of a connection take | `SpecDeadlines` | `PropDeadlines` (C112) |
| `RawBuffer` | the memory behind `read_to_end` | `SpecRawBuffer` | `PropRawBuffer` (C113) |
| (no new model) | arrays inserted in more than one piece | | `PropSplit` (C63) |
| (no new model) | which nullable columns take a NULL | | `PropNulls` (C18) |
| (no new model) | who gets idle connections and the errors of attempts | | `PropIdle`, `PropWaiting` (C114, C115) |
| `Copies` | conversions between cells and owned values | `SpecCopies` | `PropCopies` (C116) |
| (no new model) | waiting for bytes can end | | `PatientProofs`, `PropPatience` (C117) |
| (no new model) | sizes of the pieces that are waited for | `SpecAppetite` | `PropAppetite` (C118) |

## 2. Conventions

* A Rust panic is the value `Panic p`, never a default. `Result::Err` is `Err e`. `&mut self` returns the new state.
* Bytes are `N` below 256 (`bytes_ok`), byte strings and Rust strings are `list N`. Lengths in the wire
  format are `N`; list lengths and indices are `nat`.
* Integer arithmetic that can wrap or overflow carries the wrap or the overflow panic explicitly. The
  model is of a build with overflow checks on (cargo's dev/test profile); where release mode differs it
  is said in the comment.
* A loop bounded by the data is structural recursion; other loops take fuel and return a distinguished
  out-of-fuel value that the theorems exclude.
* External code is a parameter of the definitions (a section variable), and what is assumed of it is a visible
  premise of each theorem: the set of known time-zone names, LZ4.
* A property the code violates is proved as `…_refuted : exists …` with the witness computed by the
  kernel; where possible the part that does hold is proved beside it.

## 3. Properties

`properties.jsonl` lists them, `MANIFEST.json` says which theorems establish which. A property that is
false of the code has theorems named `…_refuted`, which prove a counterexample, and theorems for
the part that does hold, usually named `…_partial`. Their hypotheses say which cases are left out.

## 4. Trusted base

* Coq 8.16.1's kernel, and `coqchk`.
* `Print Assumptions` prints "Closed under the global context" for every property theorem: there are
  no axioms, neither our own nor the library's. `coqchk` also lists seven axioms
  `Coq.ssr.ssrunder.Under_rel.*` of the standard library's ssreflect files, which are loaded and not used.
* The reading of the Rust source. Each definition cites the file and lines it follows and says what it
  simplifies. No code was run.
* The specifications in `Spec*.v` and the statements in `Prop*.v`.
* What is outside the model enters as section variables, that is, as universally quantified parameters
  of the theorems:
  `tz_known` (names of time zones that chrono-tz knows), `offset` (the offset of a zone at a time),
  `lz4_compress` and `lz4_decompress` (any functions; where compressed data are read back, it is a
  premise that the second inverts the first on the data), `show_float` and `float_text` (Rust's printing of floats),
  `ipv6_text` (of IPv6 addresses), `rfc2822` and `time_text` (chrono's printing of times),
  `parse_ipv4` and `parse_ipv6` (Rust's parsing of addresses), `numeric_beyond` (which characters
  beyond ASCII `char::is_numeric` accepts), `parse_url` (the crate `url`), `tls` (a feature of the crate),
  `server` and `fresh` (what servers answer and whether connecting succeeds: any functions),
  and the outcomes of reads and writes on the socket (any lists).
* Simplifications: a build with overflow checks on (cargo's dev and test profiles; what a release
  build does instead is modelled in `Release.v` and at `read_uvarint`). Floats are their bit patterns. `Arc`, `Box` and
  borrowing are left out where nothing is shared; where memory is shared or aliased (string pool,
  typed iterators, clones of columns) addresses are modelled. Hash maps are association lists with the code's equality.
  Allocation fails only above `isize::MAX` bytes. The stack is unlimited.

Not modelled: tokio and async-std themselves (a poll is a step whose results are arbitrary; futures-util's
`SelectOk` is modelled as its source has it), what a TLS handshake does (an oracle), DNS (its result is arbitrary),
wall-clock time except in `Deadlines`, where the clock is ideal (elsewhere a timeout is an arbitrary event), logging, the macros' expansion
(`row!`, `simple_num_impl!` and the like are modelled by what they expand to), `Debug` output other than that of blocks and of what holds credentials,
and the texts of error messages except where a property is about them.

The format of a server's blocks in `SpecNative` (C86) is not in /repo: it is written down from ClickHouse's
documentation and sources (Native format, `SerializationLowCardinality`, type names). What C86 says about servers is as
good as that description.

## 5. Findings

Every entry is a theorem about the model of the code. Panics are reachable with well-formed calls or by
what a server sends, as stated in the theorem.

### Wire
* A varint of eleven continuation bytes panics (overflow checks on): `c02_read_uvarint_panic_refuted`.
* A string length above `isize::MAX` panics instead of failing: `c04_huge_length_refuted`.
* A compressed frame announcing less than nine bytes panics, and one with no data makes the client wait
  for ever: `c11_short_frame_refuted`, `c11_empty_frame_refuted`.
* The query id is sent only as the initial query id; a setting with an empty name ends the settings; servers
  before revision 54032 misread the query: `c29_query_id_refuted`, `c29_empty_name_refuted`, `c29_old_server_refuted`.
* Type names: an aggregate over `FixedString(16)` is read as `FixedString(1)`; quotes, backslashes and some map keys
  do not survive; `Nullable`, `Array(`, `Map` and others panic: `c14_aggregate_refuted`, `c14_labels_refuted`, `c15_panics_refuted`,
  `c15_odd_refuted`, `c15_key_refuted`.
* Data that panics: array offsets and string lengths near 2^64, numbers of eleven bytes, LowCardinality flags with
  another bit set, FixedString(0), a LowCardinality column of another number of rows than the block: `c69_panics_refuted`.

### Values
* Decimals: numbers in (-1, 0) print malformed; comparison overflows and panics; 32-bit columns drop high
  digits; `Decimal::of` of narrow integers is wrong; equal decimals hash differently: `c43_negative_fraction_refuted`,
  `c44_comparison_panic_refuted`, `c45_store_refuted`, `c50_narrow_source_refuted`, `c51_equal_but_hash_differs_refuted`.
* Dates wrap modulo 65536 days, times modulo 2^32 seconds; DateTime64 before 1970 with a fraction, out of
  range or with a precision above 9 panics: `c40_out_of_range_refuted`, `c52_out_of_range_refuted`, `c42_datetime64_refuted`.
* Cells: NULL reads as `Option` of any type and an empty map as any `HashMap`; DateTime64 of precision 19 or more reads as
  1970: `c23_null_refuted`, `c23_panics_refuted`, `c23_precision_refuted`.
* Putting values: octets come back reversed as an address, dates and times wrap, maps keyed by bool or times
  panic, decimals of mixed scales panic: `c46_octets_refuted`, `c55_dates_refuted`, `c55_times_refuted`, `c55_map_keys_refuted`,
  `c55_date_keys_refuted`, `c55_lost_keys_refuted`, `c56_scales_refuted`, `c56_times_refuted`.

### Columns and blocks
* DateTime64 columns cannot be written: `c08_datetime64_refuted`, `c18_ticks_refuted`; maps with times as values
  cannot be inserted: `c49_times_refuted`.
* The second piece of a split insert carries wrong rows of arrays and maps: `c13_arrays_and_maps_refuted`.
* Rows naming different columns leave ragged blocks, whose iteration leaves out cells or gives rows without them: `c22_ragged_refuted`, `c67_ragged_refuted`.
* A refused row leaves its first fields in the block, which then is ragged and is sent unreadable: `c70_kept_refuted`.
* An iterator over optional UUIDs of a column of optional IPv4 addresses announces four items and gives one:
  `c75_options_refuted`.
* Printing a ragged block panics or leaves out cells: `c74_ragged_refuted`. Different cells print the same (strings in arrays,
  NULL, bytes, fractions of seconds): `c72_strings_refuted`; values print differently from the cells they become: `c73_alike_refuted`.
* Blocks with booleans, addresses or UUIDs are not equal to themselves: `c24_not_equal_to_itself_refuted`.
* Positions and rows out of range panic: `c25_out_of_range_refuted`.
* Appending to LowCardinality(Nullable) panics: `c19_nullable_refuted`. Maps keyed by dates, booleans, UUIDs,
  addresses or enums panic when read: `c49_other_keys_refuted`.
* Typed iteration: keys of maps by fixed strings and maps inside two arrays read the values' memory; address
  iterators ignore the type; dictionary indices of dates are unchecked; dates are a day early west of
  Greenwich; null marks and lengths differ from the getter: `c47_fixed_keys_refuted`, `c47_inner_map_refuted`,
  `c54_inner_map_refuted`, `c47_dates_inside_refuted`, `c54_addresses_refuted`, `c54_dictionary_refuted`, `c54_concatenated_refuted`,
  `c47_null_mark_refuted`, `c47_short_row_refuted`, `c41_west_refuted`.
* Conversions at insert: long strings are cut, decimals lose digits or wrap, enumerations change their label, malformed
  addresses panic, some pairs of types are refused or panic when written, times before 1970 are
  rounded up: `c61_cut_refuted`, `c61_decimal_refuted`, `c61_enum_refuted`, `c62_address_refuted`, `c62_dictionary_refuted`,
  `c62_missing_refuted`, `c62_unwritable_refuted`, `c64_before_1970_refuted`.
* After cloning a block, pushing to its nullable, array, map or aggregate columns panics, for the clone and
  for the original, until one of them is dropped: `c66_clones_refuted`.

### Connections
* Complete messages that arrive together with the close are dropped: `c27_refuted`.
* Column names: the empty name and other numeric characters are left bare, a backslash escapes the closing
  backtick: `c30_bare_refuted`, `c30_backslash_refuted`.
* After a server exception in a query, or a failed check, every further operation on the handle panics;
  queries on a handle without a pool always panic: `c31_exception_refuted`, `c39_unreachable_refuted`, `c39_no_pool_refuted`.
* `fetch_all` panics on a response without columns: `c31_fetch_all_refuted`.
* Without ping_before_query the next query delivers an abandoned query's rows, and its exception: `c32_refuted`, `c32_exception_refuted`.
* A close panics in execute, insert, handshake and clearing: `c33_execute_refuted`, `c33_insert_refuted`, `c33_hello_refuted`, `c33_clear_refuted`.
* Retrying never ends when reconnecting succeeds and the check fails: `c38_refuted`.
* A Progress message during an insert makes it fail: `c53_progress_refuted`.
* After a message that cannot be read, or an I/O error, a query leaves its connection in the handle; without
  ping_before_query the next query is given the rest of the old answer: `c82_query_refuted`, `c82_next_query_refuted`.
* A socket that accepts no bytes any more keeps `send` in its loop for ever: `c83_refuted`.
* With compression, a block of more than 0x7E000000 bytes is sent as a frame of 25 bytes that holds nothing of it:
  `c84_lost_refuted`. One whose compressed form is above 1 GB is sent although no reader of this library takes it:
  `c84_too_big_refuted`. Of one of 4 GB and more only the first (length mod 2^32) bytes are compressed, into a frame that is in order:
  `c84_wrapped_refuted`, `c84_wrapped_case`.
* Totals and extremes come as further rows of the result: `c85_refuted`.
* Nothing is checked when a block is received: array offsets that decrease, dictionary indices out of range and maps keyed by dates panic
  when the cell is read, and a Bool byte other than 0 and 1 becomes a bool that is neither (undefined behaviour): `c87_refuted`.
* A block in answer to the data of an insert counts as its end; an exception behind it is left on the connection and the insert
  succeeds (no server is known to do this): `c89_refuted`.
* A server's Array(LowCardinality(X)) cannot be read: the version of the dictionary comes before the offsets, the client
  expects it after them: `c86_array_low_refuted`. A server's LowCardinality(Nullable(X)) is misread: its dictionary has no
  null marks, the client expects them; it waits for bytes that never come, or reads a null as a value: `c86_low_nullable_refuted`.
* A row pushed onto a received LowCardinality column reads as another value when the server's dictionary was full for the width of
  its indices but the rows are few: `c80_refuted`.
* A pool that nobody uses any more is never freed, and its connections stay open, when a connection was opened while another
  came back, or an attempt was given up: `c79_cycle_refuted`, `c79_abandoned_refuted`.
* With the feature async_std every error becomes an I/O error: a server's exception loses its code, a timeout is no
  timeout error: `c78_async_std_refuted`.
* In a release build (no overflow checks): a frame that announces less than nine bytes, with a right checksum, makes the C function
  LZ4_decompress_safe be called with a negative length (undefined behaviour caused by received data); decimals that differ by
  2^46 are equal to the same third one; times beyond the range of nanoseconds are read as other times, those of precision 10 to
  18 as 1970: `c95_refuted`, `c95_time_refuted`, `c96_transitive_refuted`.
* `Value` implements `Eq`, but no map equals itself (nor anything else), neither does a NaN or a value that holds one; comparing a
  DateTime64 whose time does not fit 64 bits of nanoseconds panics: `c101_reflexive_refuted`, `c101_value_reflexive`.
* C104: `f64::from` a decimal of more than 53 bits need not be the nearest float: the number is rounded before the
  division. 900719925474099.5 is itself an f64 and becomes another one.
* C105: `Decimal::of(0.29, 2)` is 0.28, also on the way from the decimal 0.29 to a float and back. NaN becomes 0, minus infinity and everything
  below -2^63 becomes the least i64 (19 digits) without an error, while what is above 10^18 panics.
* C106: `Debug` of options leaves out user name and password, but options read from a URL have them in the address too, which is
  shown; an `OptionsSource` that was not used yet shows the whole URL.
* C110: impossible parameters in type names are accepted: `Decimal32(200)`, `DateTime64(4294967295)`, and `Enum8('a' = 300)`, whose 300 becomes
  44: `c110_refuted`.
* C111: the error of reading a cell as an `Option` says it cannot be cast to `$t` (`stringify!($t)` outside of a macro, from_sql.rs 293); that of a
  vector of numbers names the element (`i32` for `Vec<i32>`), so it reads as if one number had been asked for; that of a `HashMap` names no type.
* C112: `execute_timeout` or `insert_timeout` of `none` is replaced by a timeout of zero seconds (lib.rs 394-396, 448-450), so that every `execute` or
  `insert` fails with a timeout at its first wait instead of being left to end: `c112_none_refuted`. The check of a connection can go on for ever, with
  nothing above it that ends it when a stream is read: `c112_check_refuted`.
* C63: an insert of more rows than one piece holds (1,048,576) delivers wrong arrays whatever the
  piece size: of that many arrays of one element plus one more, the last arrives with the elements of all.
* C114: a task that asks the pool for a connection gets the error of an attempt that another task started, although a
  connection is idle: `c114_failed_refuted`.
* C116: borrowing an owned value as a cell (`ValueRef::from(&value)`) panics for a map whose keys are
  dates or times, because `Hash for ValueRef` lacks them, and for every chrono time (`unimplemented!()`).
* C117: a data packet whose first compressed frame carries no data is waited for for ever, whatever the
  server sends after it (`read` returns 0, which `read_bytes` takes for missing bytes; see also C11).
* C118: fifteen bytes of an exception packet make the client set up a buffer of any size below 2^63 and wait for
  it to be filled: `c118_texts_refuted`.
* C97: `insert` of a block that has columns but no rows sends the block that ends the data twice
  (`ChunkIterator` gives `Block::default()` for it and `insert_block_` adds another). The insert
  succeeds; the second reaches a server that is idle, whose complaint ("Unexpected packet Data")
  is the answer to the next operation on that connection: `c97_refuted`. What a server expects is
  from ClickHouse's protocol (`SpecProtocol`), not from /repo.
* Pool: two threads can have twice the maximum of connections in use (a bound of that and the number of threads is proved): `c34_double_refuted`.
* Pool: two threads exceed the maximum or leave more than the minimum idle; waiting tasks are never woken in three
  ways; the order of addresses breaks after 2^64 attempts: `c34_refuted`, `c35_idle_refuted`, `c36_refuted`,
  `c36_cancelled_refuted`, `c36_interleaved_refuted`, `c37_wraps_refuted`.
* Options: parameters are decoded twice and the database name not at all; negative settings become huge; pool_max=0
  panics; alternative hosts without a port can never be connected to; a limit "none" is a limit of zero;
  secure=true is ignored without the feature tls: `c48_decoded_twice_refuted`, `c48_database_refuted`, `c57_negative_refuted`,
  `c58_no_room_refuted`, `c58_alt_port_refuted`, `c59_none_refuted`, `c60_plain_refuted`.
