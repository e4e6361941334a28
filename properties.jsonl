{"id": "C01", "title": "Unsigned var-int encoding is a prefix-free, invertible encoding of every u32", "statement": "For every u32 n and any bytes that follow it, a standard LEB128 reader applied to what write_var_u32 emitted returns n and leaves exactly the following bytes. The encoding has between 1 and 5 bytes, and both the length returned by write_var_u32 and the length predicted by size_var_u32 equal the number of bytes emitted.", "quantifier": "all u32 values, all byte suffixes", "why_tests_cant": "2^32 values times all suffixes; a test samples a handful of values and cannot see a wrong group boundary at an untested magnitude.", "anchors": ["tsfile-writer/src/writer/utils.rs: write_var_u32, size_var_u32"]}
{"id": "C02", "title": "Signed var-int and string encodings are invertible", "statement": "For every i32 n a zig-zag LEB128 reader recovers n (and the suffix) from what write_var_i32 emitted, and size_var_i32 predicts its length. For every string shorter than 2^31 bytes the length-prefixed form written by write_str is recovered exactly, leaving any suffix untouched.", "quantifier": "all i32 values, all byte strings below 2^31 bytes, all suffixes", "why_tests_cant": "The domain is 2^32 integers and unboundedly many strings; the sign/shift corner cases (i32::MIN) are single points in it.", "anchors": ["tsfile-writer/src/writer/utils.rs: write_var_i32, size_var_i32", "tsfile-writer/src/writer/mod.rs: write_str"]}
{"id": "C03", "title": "The crate's own var-int reader inverts the writer exactly outside 0xFF groups", "statement": "read_var_u32 applied to the output of write_var_u32 n followed by any suffix returns n and consumes exactly the encoding if and only if none of the emitted bytes is 0xFF. (For other n, e.g. 255 or 16383, it stops at the 0xFF byte: it leaves input unread or returns a wrong number.) On any bytes whatsoever the reader ends at the first byte that is below 128 or equal to 255, running out of bytes before that is an error, up to five bytes give the sum of the low seven bits by place value modulo 2^32 (255 counting as such), and a debug build panics when a sixth byte is reached.", "quantifier": "all u32 values, all suffixes; all byte sequences", "why_tests_cant": "The failing values are those with a 7-bit group of ones that is not the last one; a test over small or random numbers rarely hits a wrong value.", "anchors": ["tsfile-writer/src/writer/utils.rs: read_var_u32, write_var_u32"]}
{"id": "C04", "title": "TS_2DIFF encoding of 64-bit columns is lossless", "statement": "Feeding any sequence of i64 values to a fresh LongTs2DiffEncoder and serializing it gives bytes that an independent TS_2DIFF reader (big-endian block headers, MSB-first bit packing, two's-complement arithmetic) decodes to exactly that sequence, for every length (including block boundaries at 129 values) and for deltas that overflow i64, in a release build.", "quantifier": "all finite sequences of i64", "why_tests_cant": "The space of sequences, bit widths 0..64 and block positions is unbounded; overflow of deltas is a corner case no sample covers.", "anchors": ["tsfile-writer/src/writer/encoding/time_encoder.rs: ts2diff_encoder!, LongTs2DiffEncoder::to_bytes"]}
{"id": "C05", "title": "TS_2DIFF encoding of 32-bit columns is lossless", "statement": "Same as C04 for IntTs2DiffEncoder: every finite sequence of i32 values is recovered by the independent 32-bit TS_2DIFF reader from the serialized bytes, in a release build.", "quantifier": "all finite sequences of i32", "why_tests_cant": "Unbounded sequences; the 32-bit packing routine is separate code with different masking.", "anchors": ["tsfile-writer/src/writer/encoding/time_encoder.rs: ts2diff_encoder!, IntTs2DiffEncoder::to_bytes"]}
{"id": "C06", "title": "Bit packing never disturbs neighbouring values", "statement": "Packing any list of numbers below 2^w one after the other with to_bytes at bit positions 0, w, 2w, ... yields exactly ceil(n*w/8) bytes whose big-endian bit string is the concatenation of the w-bit numbers followed by zero padding, for every width w (0..64 for the 64-bit routine, 0..32 for the 32-bit routine).", "quantifier": "all widths, all lists of numbers that fit the width", "why_tests_cant": "Every alignment of every width against byte boundaries and every neighbour value must be right; that is an unbounded family of bit patterns.", "anchors": ["tsfile-writer/src/writer/encoding/time_encoder.rs: LongTs2DiffEncoder::to_bytes, IntTs2DiffEncoder::to_bytes"]}
{"id": "C07", "title": "Timestamps never trip overflow checks; value columns do exactly on delta overflow", "statement": "With overflow checks on (debug build) the time column encoder never panics on any strictly increasing sequence of non-negative timestamps, i.e. on anything the writer accepts between two flushes; and an i64 or i32 TS_2DIFF value column accepts a sequence without panic if and only if no consecutive difference and no block-relative difference leaves the type's range; when it does not panic, the bytes are the same as in a release build.", "quantifier": "all sequences, both build profiles", "why_tests_cant": "Whether an overflow can happen is a question about all sequences; tests run one profile on a few sequences.", "anchors": ["tsfile-writer/src/writer/encoding/time_encoder.rs: ts2diff_encoder!", "tsfile-writer/src/writer/group_writer.rs: check_is_history_data"]}
{"id": "C08", "title": "PLAIN encoding is lossless for every supported type", "statement": "Writing any sequence of values of the column type to a PLAIN encoder gives bytes that an independent reader (zig-zag var-int for INT32, big-endian two's complement for INT64, big-endian IEEE bits for FLOAT) decodes to the same sequence; FLOAT bit patterns, including every NaN payload, infinities and negative zero, are preserved bit for bit.", "quantifier": "all value sequences of each data type", "why_tests_cant": "Unbounded sequences, 2^32 float bit patterns.", "anchors": ["tsfile-writer/src/writer/encoding/plain.rs: PlainEncoder"]}
{"id": "C09", "title": "Statistics of integer series are exact for any page and chunk partition", "statement": "For INT32 and INT64 points, the statistics accumulated by updating page statistics point by point and merging them page by page (and chunk by chunk) report the true count, smallest and largest timestamp, the values at those timestamps, and true minimum and maximum value, no matter how the points are split into pages, provided timestamps are distinct and below i64::MAX. At a timestamp of i64::MAX the first value may be wrong (reported as 0).", "quantifier": "all non-empty point sequences with distinct timestamps, all partitions into non-empty pages", "why_tests_cant": "The claim ranges over all data and all ways page sealing can split it; tests use one split.", "anchors": ["tsfile-writer/src/writer/statistics.rs: StatisticsStruct::update, merge, new", "tsfile-writer/src/writer/chunk_writer.rs: write_page_to_buffer"]}
{"id": "C10", "title": "Statistics sums: exact for INT32, IEEE left-to-right per page otherwise", "statement": "For INT32 series with fewer than 2^32 points the sum field equals the exact integer sum of all values whatever the page partition. For INT64 and FLOAT series the sum field is the binary64 sum of the per-page sums in page order, each being the left-to-right binary64 sum of that page's values.", "quantifier": "all point sequences and page partitions", "why_tests_cant": "Overflow freedom needs a bound over all inputs; float rounding order depends on every partition.", "anchors": ["tsfile-writer/src/writer/statistics.rs: update, merge"]}
{"id": "C11", "title": "FLOAT minimum and maximum are right exactly for data without infinities and NaN-only pages", "statement": "For FLOAT series whose values are all finite, the reported minimum and maximum are values of the series and bound all of them in IEEE order. If a series contains only +infinity the reported minimum is f32::MAX, and with only -infinity the reported maximum is f32::MIN; NaN values never affect minimum and maximum.", "quantifier": "all f32 sequences and page partitions", "why_tests_cant": "Special values combine with sequence order and partition in unboundedly many ways.", "anchors": ["tsfile-writer/src/writer/statistics.rs: new, update, merge"]}
{"id": "C12", "title": "Serialized statistics are decodable and their size estimate is exact", "statement": "For every statistics value of each data type, an independent reader recovers every field from the serialized form and leaves any suffix, and get_serialized_size equals the number of bytes serialize emits.", "quantifier": "all statistics values, all suffixes", "why_tests_cant": "All combinations of field values and var-int sizes of the count.", "anchors": ["tsfile-writer/src/writer/statistics.rs: serialize, get_serialized_size"]}
{"id": "C13", "title": "A chunk holds exactly the points written to its series", "statement": "After any sequence of successful writes to a chunk writer, sealing it and reading the page buffer back (one page without page statistics, or several pages each with page statistics) yields exactly the written points in order, with at least one point per page, the page statistics equal to those of the page's points and the chunk statistics equal to those of the pages merged - for every data type, encoding and compression (compression being any function that decompression inverts).", "quantifier": "all write sequences, data types, encodings, compressors", "why_tests_cant": "Page boundaries depend on size estimates computed from all previous data; the switch from one to two pages rewrites the buffer. Only a few layouts can be tested.", "anchors": ["tsfile-writer/src/writer/chunk_writer.rs: ChunkWriter::write, check_page_size_and_may_open_new_page, write_page_to_buffer, seal_current_page", "tsfile-writer/src/writer/chunk_writer.rs: PageWriter"]}
{"id": "C14", "title": "Pages are bounded", "statement": "No page ever holds more than 1,048,577 points, whatever is written, and no page is empty.", "quantifier": "all write sequences", "why_tests_cant": "The page boundary is decided by a float estimate over the whole history; a test cannot exclude a history for which the estimate never triggers.", "anchors": ["tsfile-writer/src/writer/chunk_writer.rs: check_page_size_and_may_open_new_page"]}
{"id": "C15", "title": "Flushing on a healthy sink never fails its own size check", "statement": "On a sink that accepts all bytes, the size predicted for a chunk group equals the bytes actually emitted for it, so flush_all_chunk_groups never returns the IllegalState error 'Bytes written are not as expected!', in any reachable state.", "quantifier": "all schemas and operation histories", "why_tests_cant": "The prediction and the serializer are separate code that must agree for every length and every var-int size.", "anchors": ["tsfile-writer/src/writer/chunk_writer.rs: get_serialized_chunk_size, write_to_file_writer", "tsfile-writer/src/writer/tsfile_writer.rs: flush_all_chunk_groups"]}
{"id": "C16", "title": "Everything acknowledged is in the closed file, in order, and nothing else (sequential scan)", "statement": "For every schema and every history of write / write_many calls followed by close that does not panic, on a healthy sink, an independent sequential TsFile reader parses the file completely and, for every device and measurement, the points it finds are exactly the points accepted for that series in acceptance order (for write: those answered Ok; for write_many: the points before the first failing one), regardless of page sealing and memory-triggered flushes - for files below 4 GiB and histories below 2^32 points in which at least one call succeeded since the last flush. No other series appears.", "quantifier": "all schemas, histories, data types, encodings, compressors", "why_tests_cant": "Quantifies over all histories, including those that seal pages or flush; an end-to-end test checks single histories.", "anchors": ["tsfile-writer/src/writer/tsfile_writer.rs: TsFileWriter::write, write_many, close, flush_all_chunk_groups", "tsfile-writer/src/writer/group_writer.rs: write, flush_to_filewriter", "tsfile-writer/src/writer/chunk_writer.rs", "tsfile-writer/src/writer/tsfile_io_writer.rs"]}
{"id": "C17", "title": "Every series is readable through the file's index", "statement": "For the same files, starting only from the tail (magic, footer length) an independent reader finds the metadata index, walks device node -> measurement node -> timeseries metadata -> chunk offsets, and obtains for every series with data exactly its accepted points and its series statistics, provided measurement ids contain no dot and every device has at most 65536 measurements - for every hash-map iteration order.", "quantifier": "all schemas, histories, hash-map iteration orders", "why_tests_cant": "The index is built from offsets that depend on every byte written before; only an invariant over all histories shows they always hit the right bytes.", "anchors": ["tsfile-writer/src/writer/tsfile_io_writer.rs: end_file, flush_metadata_index", "tsfile-writer/src/writer/mod.rs: construct_metadata_index, generate_root_node, MetadataIndexNode::serialize, TimeSeriesMetadata::serialize, TsFileMetadata::serialize"]}
{"id": "C18", "title": "File framing", "statement": "Every file closed on a healthy sink starts with the 6 magic bytes 'TsFile' and version byte 3 and ends with a 4-byte big-endian footer length and the magic bytes; the footer length is the exact size of the index root, metadata offset and bloom filter; and the metadata offset stored in the footer is the position of the separator byte 0x02 that ends the data section.", "quantifier": "all schemas and histories that close without panic", "why_tests_cant": "Positions and lengths depend on the complete history.", "anchors": ["tsfile-writer/src/writer/tsfile_io_writer.rs: start_file, end_file", "tsfile-writer/src/writer/mod.rs: TsFileMetadata::serialize"]}
{"id": "C19", "title": "Recorded chunk offsets point at the chunk's own header", "statement": "In every reachable state every chunk offset kept for the index is the position of a chunk header in the emitted bytes, whose measurement id, data type and data are those of the series the offset is recorded for, and which lies in a chunk group of the recorded device.", "quantifier": "all reachable states on a healthy sink", "why_tests_cant": "Offsets are recorded before the bytes are emitted, in every flush; only an invariant covers all flush histories.", "anchors": ["tsfile-writer/src/writer/tsfile_io_writer.rs: start_flush_chunk, end_current_chunk, end_chunk_group", "tsfile-writer/src/writer/chunk_writer.rs: write_all_pages_of_chunk_to_ts_file"]}
{"id": "C20", "title": "Measurement index is sorted; device index order is not guaranteed", "statement": "Within a device the measurement names listed in the index are strictly increasing in byte order, so binary search finds each; a measurement node has one entry per 256 series, named after the first of them, and the range from its offset to the next holds exactly the metadata of these series; the device entries of the root node are a permutation of the devices with data, but their order is the hash map's iteration order: for two or more devices there are iteration orders for which the root node is not sorted.", "quantifier": "all schemas, histories and iteration orders", "why_tests_cant": "A test sees one random iteration order per run.", "anchors": ["tsfile-writer/src/writer/mod.rs: construct_metadata_index", "tsfile-writer/src/writer/tsfile_io_writer.rs: flush_metadata_index"]}
{"id": "C21", "title": "Bloom filter has no false negatives", "statement": "For every series with data in a closed file, testing the path device.measurement against the bloom filter read back from the footer (bit bytes, size, number of hash functions) answers 'might contain'.", "quantifier": "all sets of paths, all filter sizes", "why_tests_cant": "Ranges over all sets of strings; tests check the filter bytes of one or two files.", "anchors": ["tsfile-writer/src/writer/mod.rs: BloomFilter::add, build, empty_filter, serialize_bits, serialize, HashFunction::hash"]}
{"id": "C22", "title": "Bloom filter hash is MurmurHash3 x64-128 for every string", "statement": "In a release build Murmur128::hash(s, seed) equals the low 32 bits of the sum of the two words of canonical MurmurHash3_x64_128 (unsigned 64-bit arithmetic) of the bytes of s with that seed, for every string below 2^31 bytes and every non-negative seed, so any reader using that hash finds the bits.", "quantifier": "all byte strings, all seeds", "why_tests_cant": "Unbounded inputs; blocks and each of the 15 tail lengths are separate code paths in signed arithmetic.", "anchors": ["tsfile-writer/src/writer/murmur128.rs: Murmur128::hash, inner_hash, fmix, rotl64, get_block"]}
{"id": "C23", "title": "When close panics", "statement": "On a healthy sink in a release build, closing a writer panics if and only if more than 256 devices have data, or the bloom filter bit count is 1, 2 or 3 modulo 8, or a path hash equals i32::MIN with a bit count that does not divide 2^31. In particular a file with exactly 44 series never closes successfully.", "quantifier": "all reachable states with index sizes in range", "why_tests_cant": "Panics depend on the number of series modulo an irregular sequence; the repository's tests use at most a few series.", "anchors": ["tsfile-writer/src/writer/mod.rs: BloomFilter::serialize_bits, HashFunction::hash, construct_metadata_index", "tsfile-writer/src/writer/tsfile_writer.rs: close"]}
{"id": "C24", "title": "Series identity in the index", "statement": "If no measurement id contains a dot, the index keeps all series apart: each (device, measurement) with data has its own entry under its own device. With dots in measurement ids this fails: there is a schema in which two different series share one index entry and a series is listed under a device that was never declared.", "quantifier": "all schemas and histories", "why_tests_cant": "Needs reasoning over all pairs of names.", "anchors": ["tsfile-writer/src/writer/tsfile_io_writer.rs: end_file, flush_metadata_index"]}
{"id": "C25", "title": "Failed single writes leave no trace", "statement": "Removing from a history every write call that returned an error does not change the answers of the other calls nor a single byte of the file.", "quantifier": "all histories, all positions and kinds of failing writes", "why_tests_cant": "Requires comparing all histories with their reductions; error paths do touch internal state (last-time entries).", "anchors": ["tsfile-writer/src/writer/tsfile_writer.rs: write", "tsfile-writer/src/writer/group_writer.rs: write, check_is_history_data"]}
{"id": "C26", "title": "Acceptance criterion for writes", "statement": "In every reachable state, a write to a declared series with a value of its type is answered Ok if and only if the timestamp is greater than the last timestamp accepted for that series since the last flush (greater than -1 if there is none), OutOfOrderData otherwise; undeclared devices are answered IllegalState. Hence between flushes the accepted timestamps of a series are strictly increasing and non-negative.", "quantifier": "all reachable states, timestamps and values", "why_tests_cant": "All states and all timestamps, including negative ones and i64 extremes.", "anchors": ["tsfile-writer/src/writer/group_writer.rs: check_is_history_data, write", "tsfile-writer/src/writer/tsfile_writer.rs: write"]}
{"id": "C27", "title": "Ordering is forgotten at every flush", "statement": "The order guarantee does not survive a flush: after any flush that emitted data (memory-triggered or by close) a write with a timestamp at or below one already stored for the series is accepted again. So strict increase of a series' timestamps over the lifetime of a writer does not hold.", "quantifier": "all states after a flush, all declared series and non-negative timestamps", "why_tests_cant": "A memory-triggered flush needs more than 100 MB of buffered data; tests never reach it.", "anchors": ["tsfile-writer/src/writer/tsfile_writer.rs: reset, flush_all_chunk_groups, check_memory_size_and_may_flush_chunks"]}
{"id": "C28", "title": "write_many equals the sequence of its points; it is not atomic", "statement": "write_many on a declared device stores the points in order up to the first one that is rejected, exactly as the corresponding single writes would up to that point, and reports that point's error; points before it stay buffered although the call failed. If all points are accepted the buffered data equal those of single writes.", "quantifier": "all states and batches", "why_tests_cant": "All batches and all failure positions.", "anchors": ["tsfile-writer/src/writer/group_writer.rs: write_many", "tsfile-writer/src/writer/tsfile_writer.rs: write_many"]}
{"id": "C29", "title": "Interleaving of series does not matter", "statement": "If two histories of accepted writes give every series the same sequence of points and neither run performs a memory-triggered flush, the two closed files are byte-for-byte identical (for the same iteration order of the device map).", "quantifier": "all pairs of histories that are interleavings of each other", "why_tests_cant": "The number of interleavings is exponential; tests check one order.", "anchors": ["tsfile-writer/src/writer/tsfile_writer.rs: write", "tsfile-writer/src/writer/group_writer.rs: flush_to_filewriter"]}
{"id": "C30", "title": "A value of the wrong type never reaches the file", "statement": "In every reachable state, writing a value whose type differs from the declared type of the series (or any value to a FLOAT series declared TS_2DIFF, or any DOUBLE) with an acceptable timestamp panics; it is never stored and never answered Ok. (It is also never answered with the WrongTypeForSeries error.)", "quantifier": "all reachable states, all mismatching values", "why_tests_cant": "All states; value encoders ignore or accept the mismatching value, only a later step stops it.", "anchors": ["tsfile-writer/src/writer/chunk_writer.rs: PageWriter::write", "tsfile-writer/src/writer/statistics.rs: Statistics::update", "tsfile-writer/src/writer/encoding/mod.rs: Encoder::new"]}
{"id": "C31", "title": "close is not idempotent, and a writer stays usable after close", "statement": "A second close without any write in between appends a second metadata section, so the file is no longer the one produced by the first close; the bytes of the first close remain a prefix. Points written after close are acknowledged but are absent from the file unless close is called again.", "quantifier": "all histories with more than one close", "why_tests_cant": "Relates every history to its extension.", "anchors": ["tsfile-writer/src/writer/tsfile_writer.rs: close", "tsfile-writer/src/writer/tsfile_io_writer.rs: end_file"]}
{"id": "C32", "title": "The file is append-only under every fault schedule", "statement": "Whatever the sink does on each call (accept all, accept part, fail), every API call only appends: the bytes delivered before the call are a prefix of those delivered after it. So after a crash the file is a prefix of what an uninterrupted run would have delivered up to that point.", "quantifier": "all schemas, histories, fault schedules, crash points", "why_tests_cant": "Crash points and short writes at every byte.", "anchors": ["tsfile-writer/src/writer/mod.rs: WriteWrapper", "tsfile-writer/src/writer/tsfile_io_writer.rs", "tsfile-writer/src/writer/tsfile_writer.rs"]}
{"id": "C33", "title": "Position bookkeeping equals delivered bytes", "statement": "In every reachable state and for every fault schedule the position reported by the file wrapper equals the number of bytes the underlying writer accepted, including after short writes and errors.", "quantifier": "all histories and fault schedules", "why_tests_cant": "Every interleaving of short writes and errors.", "anchors": ["tsfile-writer/src/writer/mod.rs: WriteWrapper::write, get_position"]}
{"id": "C34", "title": "I/O errors after creation are never reported", "statement": "Creating a writer returns an error if and only if the header could not be delivered completely. After that no fault schedule makes write or write_many return an I/O error and close has no result, so there is a fault schedule under which every call reports success and the closed file lacks all acknowledged points.", "quantifier": "all fault schedules and histories", "why_tests_cant": "Faults at every possible call.", "anchors": ["tsfile-writer/src/writer/tsfile_writer.rs: write, close, check_memory_size_and_may_flush_chunks", "tsfile-writer/src/writer/tsfile_io_writer.rs: start_file, end_file"]}
{"id": "C35", "title": "Flushed data survive any later crash", "statement": "Let a flush have completed at some point of a history on a healthy sink. Whatever happens afterwards and wherever the file is cut at or after that point, scanning the cut file from the start recovers at least all chunk groups flushed up to that point.", "quantifier": "all histories, all cut positions", "why_tests_cant": "Every cut position of every later byte string.", "anchors": ["tsfile-writer/src/writer/tsfile_writer.rs: flush_all_chunk_groups", "tsfile-writer/src/writer/tsfile_io_writer.rs"]}
{"id": "C36", "title": "Type codes are injective and decodable", "statement": "For data types, encodings and compressions, decoding the serialized byte gives back the same variant, and every byte that is not the code of a variant is rejected.", "quantifier": "all variants and all 256 bytes", "why_tests_cant": "Finite, but the repository tests do not cover it; proved over the whole byte range.", "anchors": ["tsfile-writer/src/writer/mod.rs: TSDataType", "tsfile-writer/src/writer/encoding/mod.rs: TSEncoding", "tsfile-writer/src/writer/compression.rs: CompressionType"]}
{"id": "C37", "title": "Schema builders: last definition wins, order irrelevant", "statement": "A schema built by any sequence of add calls maps each device to the group added last and each measurement to the definition added last; sequences with the same final definitions give writers with identical behaviour and identical files; building twice gives the same schema; a device without measurements cannot be built (panic).", "quantifier": "all sequences of add calls", "why_tests_cant": "All call sequences and hash-map orders.", "anchors": ["tsfile-writer/src/writer/schema.rs: TsFileSchemaBuilder, DeviceBuilder", "tsfile-writer/src/writer/mod.rs: Schema::simple"]}
{"id": "C38", "title": "Schema log (mlog) is parseable and complete", "statement": "For every storage group, schema and hash-map iteration order, an independent reader of the mlog format (length, payload, CRC-32) accepts the bytes produced by write_mlog and finds first the storage group plan and then exactly one create-timeseries plan per series, with the full path and its type, encoding and compression codes (payloads below 2^31 bytes).", "quantifier": "all schemas, names, iteration orders", "why_tests_cant": "All schemas and names; the tests cover one series.", "anchors": ["tsfile-writer/src/sync/mlog.rs: MLog", "tsfile-writer/src/sync/sync_sender.rs: write_mlog"]}
{"id": "C39", "title": "Digest strings determine digests", "statement": "Two digests of equal length have the same hexadecimal string with leading zeros removed only if they are equal, and the string is the hexadecimal numeral of the digest read as a big-endian number.", "quantifier": "all digests", "why_tests_cant": "2^256 digests; leading-zero digests are rare in samples.", "anchors": ["tsfile-writer/src/sync/sync_sender.rs: calculate_digest"]}
{"id": "C40", "title": "Memory check never divides by zero on a successful write", "statement": "After any successful single write the estimated memory of all groups is positive, so the memory check that follows it never divides by zero.", "quantifier": "all reachable states", "why_tests_cant": "All states, including those right after a page was sealed.", "anchors": ["tsfile-writer/src/writer/tsfile_writer.rs: check_memory_size_and_may_flush_chunks, calculate_mem_size_for_all_groups", "tsfile-writer/src/writer/chunk_writer.rs: estimate_max_series_mem_size"]}
{"id": "C41", "title": "A debug build that does not panic behaves like the release build", "statement": "On every sink and from every writer state, a sequence of writer calls that runs without panic when overflow checks are on gives the same answers, the same writer state and the same bytes when they are off. The converse is false: a difference of two accepted values may overflow only with checks on.", "quantifier": "all states, sinks and call sequences", "why_tests_cant": "All call sequences; tests run in one profile only.", "anchors": ["tsfile-writer/src/writer/encoding/time_encoder.rs", "tsfile-writer/src/writer/encoding/plain.rs", "tsfile-writer/src/writer/chunk_writer.rs", "tsfile-writer/src/writer/tsfile_io_writer.rs", "tsfile-writer/src/writer/murmur128.rs"]}
{"id": "C42", "title": "Debug builds cannot close files with long series names", "statement": "With overflow checks on, closing panics whenever some series with data has a full path of at least 16 bytes one of whose bytes 1 to 7 is neither 0x00 nor 0xFF (as in any text): the hash of the bloom filter overflows.", "quantifier": "all histories and schemas", "why_tests_cant": "All names; release tests do not see it.", "anchors": ["tsfile-writer/src/writer/murmur128.rs: inner_hash", "tsfile-writer/src/writer/tsfile_writer.rs: close"]}
{"id": "C43", "title": "Well-typed writes never panic in release builds", "statement": "With overflow checks off and less than 4 GiB buffered (counting 24 bytes per buffered point and 150 per series), a write of one point, or of a non-empty batch, returns if and only if every point that is reached and admitted has a value its series can store. So a session of well-typed writes whose size stays below that bound runs to its end, including every flush it triggers.", "quantifier": "all reachable states and arguments; all sessions", "why_tests_cant": "All states: flush points, page boundaries, memory checks.", "anchors": ["tsfile-writer/src/writer/tsfile_writer.rs: write, write_many, check_memory_size_and_may_flush_chunks, flush_all_chunk_groups", "tsfile-writer/src/writer/group_writer.rs", "tsfile-writer/src/writer/chunk_writer.rs"]}
{"id": "C44", "title": "Sessions of the sync sender", "statement": "A session sends the requests start, init, schema log (announce, data, digest), data file (announce, data, digest), end, in this order and only up to the first that fails. It reports success exactly if the data file can be read, every request except the data digest is answered, and the digest of the schema log is not refused; with an honest receiver both files arrive and the schema log lists the series of the schema. A damaged schema log is noticed before any data is sent. (That success implies an intact data file is false: the refusal of the data digest is ignored.) The sender's identifier is chosen once and kept in the lock file.", "quantifier": "all servers, schemas, file contents, hash functions and channels", "why_tests_cant": "All answer patterns of the server.", "anchors": ["tsfile-writer/src/sync/sync_sender.rs: new, _connect, sync, get_or_generate_uuid, calculate_digest, write_mlog"]}
{"id": "C45", "title": "The C interface: files, politeness, process ends", "statement": "Through the five C functions, the file of a closed writer holds exactly the points passed to file_writer_write_int32 on its pointer; an open writer is the one the same points would have made through the Rust interface. A call returns exactly if its strings are UTF-8, its codes are valid and the Rust call accepts it; otherwise the process ends, and what was flushed can be read. A caller that keeps the strings given to schema_simple and the measurement names of all writes as long as the pointers are in use, and gives back each pointer once, never causes undefined behaviour; keeping only the names given to schema_simple is not enough.", "quantifier": "all sequences of C calls and buffer operations, all file systems (parent, creation, faults), both profiles", "why_tests_cant": "Memory safety depends on all interleavings of frees and calls; the freed name is normally still intact when a test runs.", "anchors": ["tsfile-writer-c/src/lib.rs: schema_simple, schema_free, file_writer_new, file_writer_write_int32, file_writer_close", "tsfile-writer/src/writer/group_writer.rs: write (last_time_map)", "tsfile-writer/src/writer/tsfile_writer.rs: new"]}
{"id": "C46", "title": "The Python classes are memory safe and store what they are given", "statement": "No sequence of calls on Schema and TsFileWriter objects, in any order, with any arguments, with objects collected at any time they are unreferenced, makes an undefined C call. The file of a writer object that was closed holds exactly the points of its write_int calls that raised no exception, under the UTF-8 names cut at the first NUL; names without NUL stay distinct.", "quantifier": "all sequences of method calls and garbage collections, all strings and integers", "why_tests_cant": "Use-after-free needs a particular order of free, collection and calls.", "anchors": ["tsfile-writer-c/rust.py: VariableHolder, Schema, TsFileWriter"]}
{"id": "C47", "title": "A compressor that fails loses nothing until the end", "statement": "If compressing a page fails, the call still returns Ok and the page stays open: finished pages and open page together are always exactly the points written, in order, and the finished pages read back. After sealing, points are missing from the chunk exactly if the compressor rejected them. (That acknowledged points are in the closed file is false without assuming that compression succeeds: the rejected rest is dropped silently.)", "quantifier": "all interleavings of write and seal_current_page, all compressors that may reject any page, all types, encodings and values", "why_tests_cant": "The snap crate does not fail in tests; all positions of the failing page.", "anchors": ["tsfile-writer/src/writer/chunk_writer.rs: write_page_to_buffer, check_page_size_and_may_open_new_page, seal_current_page", "tsfile-writer/src/writer/compression.rs"]}
{"id": "C48", "title": "Where pages end", "statement": "The pages of a chunk are determined by the points alone: the size of the open page is estimated first at 7989 points (at 1500 in later pages); above 65536 bytes the page ends, otherwise the next estimate is due at 65536 / size * points, computed in binary32. The estimate is a function of the values (finished TS_2DIFF blocks, zig-zag lengths). Every page that ends by size has at least 1500 points and at most 29980 (INT32 PLAIN), 8006 (INT64 PLAIN), 15656 (FLOAT PLAIN), 211354 (INT32 TS_2DIFF) or 176129 (INT64 TS_2DIFF) points, so the limit of 1048576 points per page is never reached. For INT64 PLAIN the first page always has exactly 7989 points.", "quantifier": "all types, encodings, compressors that succeed, and sequences of points", "why_tests_cant": "Rounding of the binary32 estimate and all value patterns; the point limit needs a million points.", "anchors": ["tsfile-writer/src/writer/chunk_writer.rs: check_page_size_and_may_open_new_page, estimate_max_mem_size", "tsfile-writer/src/writer/encoding/time_encoder.rs: size, get_max_byte_size", "tsfile-writer/src/writer/encoding/plain.rs: size, get_max_byte_size"]}
{"id": "C49", "title": "The Thrift service: requests, answers, connections", "statement": "A request is sent in the Thrift binary protocol under the name of the method, with the arguments of the call. The processor hands the handler exactly these arguments (fields of the handshake that are not set become empty texts and 0) and the caller gets exactly the handler's answer: the status, or the application error, or any other error as kind Unknown with its text. Both ends read exactly one message, so any number of calls over one connection are answered in order, each under the next number. Unknown fields are skipped in all structures except the arguments of check (where every field is taken for the handshake: refuted). A client reports success only for a reply of type Reply, with the name of the call and its number.", "quantifier": "all calls, arguments, handlers with memory, sequences of calls; all well-formed messages with extra fields up to nesting 64; all byte strings for the soundness of success", "why_tests_cant": "All field combinations and all byte strings; the number overflow needs 2^31 calls.", "anchors": ["tsfile-writer/src/sync/sync.rs: SyncStatus, ConfirmInfo, TSyncServiceSyncClient, SyncServiceSyncProcessor, process_*, SyncService*Args, SyncService*Result"]}
{"id": "C50", "title": "The sync sender over a connection", "statement": "A session of the sync sender through the generated client and the processor does the same as with the handler called directly: same requests, same result. With a receiver behind the processor and a readable data file the session succeeds and the receiver holds the schema log and the data file byte for byte.", "quantifier": "all handlers, schemas, file contents, names, hash functions with 32-byte values", "why_tests_cant": "All contents and answer patterns; needs a server.", "anchors": ["tsfile-writer/src/sync/sync_sender.rs: new, _connect, sync", "tsfile-writer/src/sync/sync.rs: client and processor"]}
{"id": "C51", "title": "Whole sessions: answers, contents and size of the file from the input alone", "statement": "On a healthy sink, a session of non-empty calls with declared names, values of the declared type and strictly increasing non-negative times per series is answered Ok call by call, and the close yields a file that holds exactly the input, read from the front and through the index; the only exceptions are the panics of close (more than 256 devices with data, a hash of i32::MIN, a filter size of 1 to 3 modulo 8), and with at most 41 series there are none. A closed file has at most 24 bytes per point, plus 452 bytes and the name per series and flush, plus 177 bytes and three times the names per series, plus 100 bytes, where a flush before the close needs 128 MiB of buffered data; below that the file is the 7-byte header until the close. The filter takes 6.2352 bits per series, at least 256.", "quantifier": "all schemas, sessions, iteration orders, compressors that round-trip", "why_tests_cant": "Sizes and boundaries for all inputs; overflow of the 32-bit offsets needs files of 4 GiB.", "anchors": ["tsfile-writer/src/writer/tsfile_writer.rs: new, write, write_many, check_memory_size_and_may_flush_chunks, close", "tsfile-writer/src/writer/tsfile_io_writer.rs: end_file, flush_metadata_index", "tsfile-writer/src/writer/mod.rs: BloomFilter::build, MetadataIndexNode::construct_metadata_index"]}
{"id": "C52", "title": "The programs shipped with the library", "statement": "benchmark.rs (100000001 points) and benchmark2.rs (40000004 points) finish without panic, in a debug and in a release build with the same file, and the files hold exactly the numbers they count through, in at most 2400008608 and 960015608 bytes; the same for every other number of rounds within the 32-bit offsets and, for benchmark2, below 2^24, where the conversion to binary32 is exact. The quickstart of the documentation gets Ok from every call but never closes the writer: its file is the bare 7-byte header, from which nothing can be read; with a close it would hold the four points.", "quantifier": "all numbers of rounds, iteration orders, compressors that round-trip, both build profiles", "why_tests_cant": "A run of the benchmark checks nothing; the quickstart is only compiled.", "anchors": ["examples/src/bin/benchmark.rs", "examples/src/bin/benchmark2.rs", "tsfile-writer/src/lib.rs: documentation", "tsfile-writer/src/writer/test_utils.rs: write_ts_file"]}
{"id": "C53", "title": "Devices with more than 65536 series", "statement": "When a device has more than 65536 series with data, the close still returns under the same condition as otherwise and the data can be read from the front of the file exactly, but the index loses the device: its entry leads to an internal node of measurements all of whose entries carry the same offset, so that no leaf node of the device is in the file. With a single device that offset is the place of the node itself, and no reader that follows the index comes to an end with the series.", "quantifier": "all schemas, sessions, iteration orders, compressors that round-trip; files below 4 GiB", "why_tests_cant": "Needs 65537 series in one device; the tests have at most a few.", "anchors": ["tsfile-writer/src/writer/mod.rs: MetadataIndexNode::generate_root_node, construct_metadata_index, add_current_index_node_to_queue"]}
{"id": "C54", "title": "Files closed more than once", "statement": "close neither clears what was flushed nor stops the writer. After n closes the index lists, for every series, one entry for each close at which the series held acknowledged points, in the order of the closes, each with exactly the points acknowledged up to that close and their statistics; nothing else is listed. A lookup by binary search (devices with at most 256 entries) is decided by the first close at which the device held data: a series listed there is found as it was then, a name below all names listed there is not found although it may hold points, any other name is found at its first entry. A reader going through the file from the front finds exactly the points of the first close. Lookup of every stored series after a second close is refuted.", "quantifier": "all schemas without dots, sessions with any number of closes, iteration orders, compressors that round-trip; files below 4 GiB", "why_tests_cant": "The tests close every file once.", "anchors": ["tsfile-writer/src/writer/tsfile_io_writer.rs: TsFileIoWriter::end_file", "tsfile-writer/src/writer/tsfile_writer.rs: TsFileWriter::close", "tsfile-writer/src/writer/mod.rs: MetadataIndexNode"]}
{"id": "C55", "title": "The bytes of the file, exactly", "statement": "When the writer flushes (after which call, with which points, at which count it looks at its memory next) is a function of the schema and the calls. Before a close the file is byte for byte the magic, the version and the chunk groups of the flushes: devices and measurements in byte order, chunk headers, pages with their statistics where several, TS_2DIFF and PLAIN columns. After a close it is followed by the marker, the series table with statistics and chunk offsets, one node per device, the root node, the offset of the marker, the bloom filter, its length and the magic; only the order of the device nodes is left open. With at most one device nothing is left open.", "quantifier": "all schemas without dots and devices of at most 65536 series, sequences of writes and batches, iteration orders, profiles, compressors; 24 bytes per point and 150 per series within 4 GiB, files below 4 GiB", "why_tests_cant": "Tests compare three tiny files with byte arrays produced by the code itself.", "anchors": ["tsfile-writer/src/writer/tsfile_writer.rs: TsFileWriter", "tsfile-writer/src/writer/tsfile_io_writer.rs: TsFileIoWriter", "tsfile-writer/src/writer/chunk_writer.rs: ChunkWriter, PageWriter", "tsfile-writer/src/writer/group_writer.rs: GroupWriter", "tsfile-writer/src/writer/mod.rs: MetadataIndexNode"]}
{"id": "C56", "title": "Every outcome of a session in a release build", "statement": "For any sequence of writes and batches (well-typed or not, declared or not, in any order of time), the schema and the calls alone decide which call panics and what every call answers, including the texts of errors: a call panics exactly if it reaches an admitted point whose value its series cannot store, or is an empty batch on a known device with nothing buffered after the count of the next memory check has become 0. The close then panics exactly if more than 256 devices have data, the filter size is 1, 2 or 3 modulo 8, or a path hashes to i32::MIN and the filter size does not divide 2^31; points of failed batches that are never flushed do not count. With C55 this determines every byte and every answer.", "quantifier": "all schemas without dots, sequences of calls, iteration orders, compressors that round-trip; 24 bytes per point and 150 per series within 4 GiB", "why_tests_cant": "The tests run a handful of well-formed sessions.", "anchors": ["tsfile-writer/src/writer/tsfile_writer.rs: TsFileWriter", "tsfile-writer/src/writer/group_writer.rs: GroupWriter", "tsfile-writer/src/writer/mod.rs: BloomFilter"]}
{"id": "C57", "title": "Sessions on a disk that fails and recovers", "statement": "Let the disk refuse or cut any write calls at any time. At every moment the offsets kept for the index lead to whole, decodable chunks of declared series inside a group of their device, whatever was torn in between; the points of these chunks are, per series and in order, all acknowledged points that an undisturbed flush wrote, and nothing that was not offered. If the disk works again and the writer is closed, the index can be read: one entry of every series per close, the last one holding all kept points and all points acknowledged since the last disturbed call. What a disturbed flush was to write may be lost although every call answered as on a working disk. A chunk writer that is used on after a failed flush and fills two pages writes a chunk that cannot be decoded (size_without_statistics is not reset), and after more failed flushes sealing the second page panics; so between a disturbed call and the next undisturbed flush no series may get more than 3446 points.", "quantifier": "all schedules of refused and cut writes, schemas without dots (for the index), sequences of calls with any number of closes, iteration orders, compressors that round-trip; files below 4 GiB", "why_tests_cant": "The tests write to vectors, which never refuse anything.", "anchors": ["tsfile-writer/src/writer/tsfile_writer.rs: TsFileWriter::flush_all_chunk_groups, close", "tsfile-writer/src/writer/group_writer.rs: GroupWriter::flush_to_filewriter", "tsfile-writer/src/writer/chunk_writer.rs: ChunkWriter::write_to_file_writer", "tsfile-writer/src/writer/tsfile_io_writer.rs: TsFileIoWriter"]}
{"id": "C58", "title": "Every outcome of a session in a debug build", "statement": "In a debug build an overflow panics. For any sequence of writes and batches, the schema and the calls alone decide which call panics and what every call answers: on top of the panics of a release build (C56) a call panics exactly if a delta of a TS_2DIFF value column leaves the 32 or 64 bits of the column, or a delta of a finished block of 128 deltas (or of a page finished by the size check, or by a flush the call triggers) is too far from the least delta of its block. The close panics also if such a block is finished by it, or if one of the signed products and sums inside the Murmur hash of a stored path overflows or a hash is i32::MIN. A session that passes in a release build passes in a debug build, with the same answers and the same file, exactly if none of its calls overflows.", "quantifier": "all schemas without dots (for the close), sequences of calls, iteration orders, compressors that round-trip; 24 bytes per point and 150 per series within 4 GiB", "why_tests_cant": "The tests use small deltas and short paths, for which debug and release builds agree.", "anchors": ["tsfile-writer/src/writer/encoding/time_encoder.rs: LongTs2DiffEncoder, IntTs2DiffEncoder", "tsfile-writer/src/writer/tsfile_writer.rs: TsFileWriter", "tsfile-writer/src/writer/mod.rs: BloomFilter", "tsfile-writer/src/writer/murmur128.rs: Murmur128::inner_hash"]}
{"id": "C59", "title": "Files of any size", "statement": "What C16 to C21, C24, C35, C55, C56 and C58 say of files below 4 GiB holds of files of any size below 2^63 bytes, as long as no single call appends 4 GiB or more (chunk and metadata sizes are four byte fields) and the points buffered at one time stay within the 32 bits of the memory estimate. Both hold, whatever the profile, if at every moment 24 bytes for each point buffered or about to be written plus the cost of a flush, and at the end 24 bytes for each buffered point plus the cost of the metadata, stay below 4 GiB.", "quantifier": "all schemas, sequences of calls, iteration orders, compressors that round-trip, both build profiles", "why_tests_cant": "Files beyond 4 GiB are never written by a test.", "anchors": ["tsfile-writer/src/writer/tsfile_writer.rs: TsFileWriter", "tsfile-writer/src/writer/tsfile_io_writer.rs: TsFileIoWriter", "tsfile-writer/src/writer/chunk_writer.rs: ChunkWriter", "tsfile-writer/src/writer/mod.rs: MetadataIndexNode, ChunkMetadata"]}
{"id": "C60", "title": "How many points are held in memory", "statement": "If no series is compressed and 129 points of any series occupy at least L bytes (24 for their timestamps, and at least 16 to 1032 for their values, by type and encoding), then between two calls the writer holds at most max(100, 129 * 2^27 / L) points plus the values of the batches it rejected, and never waits for more than max(100, 129 * 2^27 / L) records before it looks at its memory again. The file has at least L bytes for every 129 points that are no longer in memory, before and after the close. Hence every session without compression, of any length below 2^32 points, meets the condition of C59 if batches are small and schema and rejected values fit the rest of 4 GiB; such sessions write files beyond 4 GiB. Points of rejected batches are held but not counted and trigger no flush: for any n up to 2^27 there is a session in which the writer answers every call with an error, holds n points, by its own estimate 8 bytes each, and has written nothing.", "quantifier": "all schemas without compression, sequences of calls, both build profiles; for the last two statements all n", "why_tests_cant": "A test would have to write hundreds of megabytes; the batches of the tests are all accepted.", "anchors": ["tsfile-writer/src/writer/tsfile_writer.rs: TsFileWriter::write, write_many, check_memory_size_and_may_flush_chunks", "tsfile-writer/src/writer/group_writer.rs: GroupWriter::write_many", "tsfile-writer/src/writer/chunk_writer.rs: ChunkWriter::estimate_max_series_mem_size"]}
{"id": "C61", "title": "Sessions with any number of closes", "statement": "For every sequence of writes, batches and closes, closes anywhere and as often as one likes, the schema and the calls alone determine which call panics and what every call answers, in both build profiles, and the bytes of the file up to the order in which each close writes the nodes of the devices: the chunks of each flush follow the metadata of the closes before them; a close writes, device by device, the records listed by all earlier closes and then those of all chunks in the file, while its filter holds only the paths of the chunks. Without a close and at the first close this is what C55 says.", "quantifier": "all schemas, sequences of calls, iteration orders of every close, compressors that round-trip, both build profiles", "why_tests_cant": "The tests close a writer once and stop.", "anchors": ["tsfile-writer/src/writer/tsfile_writer.rs: TsFileWriter::close, write, write_many", "tsfile-writer/src/writer/tsfile_io_writer.rs: TsFileIoWriter::end_file, start_chunk_group, end_chunk_group", "tsfile-writer/src/writer/mod.rs: MetadataIndexNode"]}
{"id": "C62", "title": "Sessions with names of any kind", "statement": "C61 with names that may contain dots: for every sequence of writes, batches and closes the calls and the schema determine the outcome of every call in both build profiles and the bytes of the file up to the order of the device nodes. A close goes by the texts device.measurement of the chunks alone: chunks with the same text share one index record, which is listed under the part of the text before its last dot, has the name and type of the first of these chunks, and leaves out those of another type although it counts them. So an acknowledged point may be in the file without any index record leading to it.", "quantifier": "all schemas, sequences of calls, iteration orders of every close, compressors that round-trip, both build profiles", "why_tests_cant": "The tests use no measurement whose name contains a dot.", "anchors": ["tsfile-writer/src/writer/tsfile_io_writer.rs: TsFileIoWriter::end_file", "tsfile-writer/src/writer/mod.rs: TimeSeriesMetadata, Path, MetadataIndexNode", "tsfile-writer/src/writer/tsfile_writer.rs: TsFileWriter::close"]}
{"id": "C63", "title": "What the index of a file leads to, whatever the names", "statement": "After every close of a session, however often it was closed, whatever its names and whatever the size of the file, a reader that goes by the index finds: for every close so far and every text device.measurement of a chunk then in the file one entry, under the part of the text before its last dot, with the name and type of the first chunk with that text, referring in order to the chunks of that type, whose points, page by page, and statistics it finds. So a series whose text no other declared series shares has an entry with exactly its acknowledged points; if the declared series with its text have one type, its points are among those of an entry; and a chunk of the file is referred to if and only if it has the type of the first chunk with its text. The entry of a measurement with a dot in its name is not under its device. A search for one name goes to the last of the entries, one for every 256 records, whose name is not greater, and takes the first record with the name there; as records are in the order of their texts, not of their names, it may miss a series that has an entry, even after one close.", "quantifier": "all schemas, sequences of calls ending in a close, iteration orders of every close, compressors that round-trip, both build profiles", "why_tests_cant": "The tests do not read files back, and use no measurement whose name contains a dot.", "anchors": ["tsfile-writer/src/writer/tsfile_io_writer.rs: TsFileIoWriter::end_file", "tsfile-writer/src/writer/mod.rs: TimeSeriesMetadata, Path, MetadataIndexNode", "tsfile-writer/src/writer/tsfile_writer.rs: TsFileWriter::close"]}
{"id": "C64", "title": "Files written through the C and Python interfaces, byte by byte", "statement": "A pointer from file_writer_new stands for the file name and the series (device, measurement, type, encoding, compression) asked for when its schema was made, whatever happens to other pointers in between. The file of a closed pointer, or of a closed Python writer object, is byte for byte the file of a session with that one series, one write per point passed and one close. A write through a live pointer returns, instead of ending the process, exactly if its names are UTF-8 and the session answers Ok; in a release build that is: the names are those of the schema, its type is INT32 and the timestamp is greater than the last one since the last flush. file_writer_close returns exactly if the close of that session does not panic. Codes passed from Python count modulo 256.", "quantifier": "all sequences of C calls and buffer operations, all sequences of Python method calls and collections, files on healthy disks, compressors that round-trip, both build profiles", "why_tests_cant": "The C library is only exercised by one script whose output is not read back.", "anchors": ["tsfile-writer-c/src/lib.rs: schema_simple, file_writer_new, file_writer_write_int32, file_writer_close", "tsfile-writer-c/rust.py: Schema, TsFileWriter", "tsfile-writer/src/writer/tsfile_writer.rs: TsFileWriter::new, write, close"]}
{"id": "C65", "title": "The stand-alone synchronisation program", "statement": "The program of sync/_main.rs sends a prefix of one fixed session (handshake, start, storage group root.sg, the metadata log, the data file, end), up to the first request that is not answered or the log being refused. Its exit status is 0 exactly if the connection opens, the identifier is in the lock file or a new one can be saved, the data file can be read, every request except the digest of the data file is answered and the digest of the log is not answered with -1; it is 1 exactly if the connection cannot be opened, the log cannot be announced or sent, or the last request is not answered; otherwise it is 101. The log it sends is that of the sender library for the one series root.sg.d1.s1. Exit status 0 does not mean that the receiver kept the data file.", "quantifier": "all servers, file systems, lock files, network interfaces, hash functions and channels", "why_tests_cant": "The program is not compiled by the tests and needs a server.", "anchors": ["tsfile-writer/src/sync/_main.rs: main, run, calculate_digest, write_mlog"]}
{"id": "C66", "title": "Comparison of errors", "statement": "Two error values compare equal exactly if they are the same error with the same text and not an I/O error; the comparison is symmetric and transitive; results compare equal exactly if they are the same and not an I/O error. An I/O error does not equal itself.", "quantifier": "all pairs of errors and results", "why_tests_cant": "Tests compare a few fixed errors.", "anchors": ["tsfile-writer/src/writer/errors.rs: PartialEq for TsFileError"]}
{"id": "C67", "title": "The program in rust.py", "statement": "With a file that can be made on a healthy disk, the program at the end of rust.py ends without an exception, its one file (the same in both builds) holds exactly the pairs (i, i) it counts through (read front to back and through the index), its size is bounded, and neither schema nor writer is left behind in the library; in particular for the 10000001 points of the source. On any disk and in either build nothing it does is undefined; unless the library ends the process, the writer is closed, everything is released, and an exception ends the program exactly if more than 2^31 points are asked for. If the file cannot be made the process is ended, not by an exception. Ending without an exception does not mean that the points are stored: disk errors during close are dropped.", "quantifier": "any number of points (holding: files below 4 GB), all environments, compressors that round-trip, both build profiles", "why_tests_cant": "The script needs a compiled library under a fixed name and its file is never read back.", "anchors": ["tsfile-writer-c/rust.py: __main__ (lines 105-112), Schema, TsFileWriter", "tsfile-writer-c/src/lib.rs"]}
{"id": "C68", "title": "The assumption about the compressor is met by the Snappy format", "statement": "There is a compressor into the Snappy block format, read back by an independent reader of that format, that meets everything the other properties assume of the crate snap; sessions with it yield files whose points the Snappy reader gets back.", "quantifier": "all inputs below 4 GB; all in-order sessions with at most 41 series", "why_tests_cant": "Tests compress two fixed payloads.", "anchors": ["tsfile-writer/src/writer/chunk_writer.rs: ChunkWriter::write_page_to_buffer", "tsfile-writer/src/writer/mod.rs: write_i64_snappy, write_snappy_complex"]}
{"id": "C69", "title": "Schemas for which both builds do the same", "statement": "If no column of the schema is TS_2DIFF and no sum or product inside the hashes of its paths overflows, every sequence of writes, batches and closes passes in a debug build exactly if it passes in a release build, with the same answers, the same writer state and the same file. Without closes the hashes do not matter. Neither condition can be dropped.", "quantifier": "all such schemas (names of any kind), sequences of calls with any number of closes, compressors that round-trip; memory estimate within 32 bits", "why_tests_cant": "Tests run in one profile; overflow depends on names and on differences of values.", "anchors": ["tsfile-writer/src/writer/tsfile_writer.rs: write, write_many, close", "tsfile-writer/src/writer/murmur128.rs", "tsfile-writer/src/writer/encoding/time_encoder.rs", "tsfile-writer/src/writer/encoding/plain.rs"]}
{"id": "C70", "title": "What the iteration order of the hash map can change", "statement": "Two sessions with the same calls, for which the hash map of devices is iterated in different orders at the closes, on a healthy disk: both panic, for the same reason, or neither does; the answers are the same, and the files have the same length and differ only in the order of the devices in the indexes, one per close: the nodes of the devices are permuted, the root node has the entries in the new order with the new offsets, every other byte is the same. The order can make a difference, and on a disk that fails once it can even change the length of the file.", "quantifier": "all schemas, sequences of calls with any number of closes, iteration orders, compressors (also failing ones), both build profiles", "why_tests_cant": "The iteration order is random per process; a test sees one or two of the orders and no way to compare them.", "anchors": ["tsfile-writer/src/writer/mod.rs: construct_metadata_index", "tsfile-writer/src/writer/tsfile_io_writer.rs: end_file", "tsfile-writer/src/writer/tsfile_writer.rs: close"]}
{"id": "C71", "title": "The schema log on a disk that fails", "statement": "For plans added to a schema log and flushes in any order, on any disk, the file consists of one piece per flush. The piece of a flush that reported success is a complete frame (length, plans, CRC-32) with the plans added since the last successful flush; the piece of a flush that reported an error is such a frame with the end missing, and the plans are kept for the next flush. If every flush reports success, as on a healthy disk, the log reads back as the plans, each once, in order. Repeating a flush after an error can leave a log that cannot be read.", "quantifier": "all sequences of calls, paths, fault schedules; plans below 2^31 bytes together", "why_tests_cant": "The unit tests flush once into a vector; they cannot make a write fail in the middle of a frame.", "anchors": ["tsfile-writer/src/sync/mlog.rs: flush, create_plan, set_storage_group_plan"]}
{"id": "C72", "title": "Sessions with any number of index records", "statement": "C62 and C63 without their condition on the number of index records: for sessions of writes, flushes and closes with names of any kind, the file consists of the pieces of C62, and a close appends the records of every device part followed by one node per device part. Up to 65536 records the node has an entry for every 256 of them. With more, the node is an internal node whose entries all have the offset where the records end, with at most 256 names (two of them the last one when there are more than 256 leaf nodes), and the leaf nodes are in no place of the file. After a close every device part has one entry in the root; with at most 65536 records all of them are found under it and looking up a name follows C63, with more none is found and looking up any name fails.", "quantifier": "all sequences of calls, schemas, names, numbers of records, map orders, disks without faults; debug and release; each call adds less than 2^32 bytes and the file stays below 2^63", "why_tests_cant": "The unit tests write one or two series; the second level of the index needs 65537 records and the third 16 million.", "anchors": ["tsfile-writer/src/writer/mod.rs: construct_metadata_index", "tsfile-writer/src/writer/mod.rs: generate_root_node", "tsfile-writer/src/writer/mod.rs: add_current_index_node_to_queue"]}
{"id": "C73", "title": "What can make a call panic, whatever the disk does", "statement": "In a release build, whatever the disk refuses or cuts, whatever the compressor returns and whatever the schema: a write or batch panics only for a value of another type than declared (todo!), a FLOAT series declared with TS_2DIFF (unwrap), a memory estimate of 0 (division) or, after a failed flush, a split of the page buffer beyond its end. With fewer than 7989 points per series the last cause is impossible, and with at most 4095 series besides the division by 0 is left only for an empty batch. A close panics only if its flush does so for that last cause, or if for some set of declared paths more than 256 device texts, a filter size of 1, 2 or 3 modulo 8 or a hash of i32::MIN comes up; with at most 41 series of fewer than 7989 points every close returns, and a whole session without wrong values and empty batches never panics, with closes anywhere. With at most 128 such series nothing is written between the header and the close, so what the calls before it answer does not depend on the disk; with at most 41 and no wrong values and empty batches the close is answered alike too, even if the disk took nothing but the header. A failing disk can be the difference: 46 series that close on a working disk panic if the group of the last two is refused.", "quantifier": "all fault schedules, schemas (names of bytes, paths below 2^31 bytes for closes), sequences of calls with any number of closes, iteration orders, compressors (no assumption)", "why_tests_cant": "No test injects a fault, and a panic needs a particular number of recorded series.", "anchors": ["tsfile-writer/src/writer/tsfile_writer.rs: write, write_many, close", "tsfile-writer/src/writer/chunk_writer.rs: write_page_to_buffer", "tsfile-writer/src/writer/tsfile_io_writer.rs: end_file", "tsfile-writer/src/writer/statistics.rs: update, merge", "tsfile-writer/src/writer/encoding/time_encoder.rs: to_bytes, flush"]}
