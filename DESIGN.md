# Formal model of tsfile-rust (Rocq / Coq 8.16.1)

Source: `/repo` (Rust), read as text, never built or run here.  All paths below are
relative to `/repo/tsfile-writer/src` unless they start with `tsfile-writer-c`.

## 1. Shape of the development

`rocq/theories/`

| file family | content |
|---|---|
| `M*.v`  | the **model**: executable Gallina functions, one per Rust function, each with a comment citing file and lines. No proofs. |
| `S*.v`  | the **specifications**: independent readers/decoders (LEB128, zig-zag, TS_2DIFF, PLAIN, statistics, pages, chunks, whole files by scan and by index, mlog), canonical MurmurHash3, the history semantics "which points were accepted". They do not use model functions. |
| `P*.v`  | proofs. |
| `T*.v`  | tests: `vm_compute` runs of the model against the byte arrays in the repository's own unit tests (tests of the model's faithfulness, not proofs). |
| `Properties*.v` | only `Theorem ... exact lemma. Qed.`, `Print Assumptions`, and an `Example` per theorem showing that its hypotheses are met by a concrete non-trivial case. |

### Representation choices

* Integers are `Z` with explicit wrapping (`wrapU n`, `wrapS n`) where the Rust type is
  fixed-width and the value can leave it. Bytes are `Z` in `0..255`, strings are lists of
  bytes (UTF-8 bytes of the Rust `str`).
* Overflow: Rust panics on overflow in debug builds and wraps in release builds. The
  model takes a `profile` (`Debug | Release`) where an overflow is possible and relevant.
* `outcome A = Ret a | Panic why`; a `Result` stays data inside `Ret`. After `Err`
  the (mutated) state is kept, exactly as with `&mut self`. After a panic the run stops.
* `BTreeMap<&str,_>` is an association list kept sorted by byte order (Rust's `str`
  ordering). `HashMap` is an association list without duplicate keys whose *iteration order*
  is an arbitrary permutation supplied with the operation that iterates.
* `Vec<u8>` buffers are `list Z`. Writing to a `Vec` cannot fail.
* The output file is a `sink`: bytes delivered, the position counter kept by
  `WriteWrapper`, and a fault schedule `nat -> fault` saying for each underlying `write`
  call whether it accepts everything, accepts only `n` bytes, or fails. `write_all` is the
  standard library loop (retry the rest; `Ok(0)` is `WriteZero`). A healthy sink has the
  all-accepting schedule (in proofs: from the current call on). `ErrorKind::Interrupted` is not modelled (it is retried and
  unobservable).
* Floating point: `f32`/`f64` arithmetic is `Coq.Floats.SpecFloat` (executable IEEE-754,
  no axioms) at (24,128) and (53,1024). Stored `f32` values are their 32-bit patterns.
  IEEE-754 leaves the bit pattern of a NaN *result* open: a NaN sum of a FLOAT column is written
  here as the positive quiet NaN. C55 is exact up to that choice.
* Snappy (`snap` crate) is a parameter `compress : list Z -> option (list Z)`; theorems that need it
  assume a `decompress` with `compress x = Some y -> decompress y = Some x` and the
  crate's documented output bound (`good_snap`: it also never fails; C47 drops that and
  lets it reject any page). SHA-256 is a parameter. CRC-32 is modelled (bitwise
  reflected polynomial 0xEDB88320) and validated on the repository's test vectors.

## 2. Trusted base

* Coq's kernel (8.16.1) including `vm_compute`.
* What `Print Assumptions` lists: the target is "Closed under the global context" for every
  property theorem; see section 5 for the actual list.
* The reading of `/repo` into `M*.v` (validated in `T*.v` against the repository's expected
  byte arrays).
* `std` behaviour used: `Vec`, `BTreeMap`, `HashMap` (up to order), `io::Write::write_all`,
  `to_be_bytes`, `leading_zeros`, `as` casts, integer overflow rules; 64-bit target
  (`usize` serialised with 8 bytes).
* `f64::ln` is only used on the constants 2.0 and 0.05; the model contains the two
  correctly rounded results.

## 3. Modelled / not modelled

Modelled function by function: `writer/utils.rs`, `writer/encoding/*.rs`, `writer/statistics.rs`,
`writer/chunk_writer.rs`, `writer/group_writer.rs`, `writer/tsfile_io_writer.rs`,
`writer/tsfile_writer.rs`, `writer/mod.rs` (index, bloom filter, metadata,
wrapper, type codes), `writer/murmur128.rs`, `writer/schema.rs`, `writer/compression.rs`,
`sync/mlog.rs`, `sync/sync_sender.rs` (for C44 the Thrift client is a function from requests to answers;
C50 puts the real client there; the hash is a parameter), `sync/_main.rs`, `writer/errors.rs` (comparison), `sync/sync.rs` (generated client, processor, structures), `tsfile-writer-c/src/lib.rs`, `tsfile-writer-c/rust.py`,
`examples/src/bin/benchmark.rs`, `benchmark2.rs`, the quickstart in `lib.rs`, `write_ts_file` of `writer/test_utils.rs` (one round
of the programs, also of the one at the end of `rust.py`; time measurement and printing left out; `File::create` empties the file).

In the C interface, memory is the caller's buffers and the boxes handed out, by address; using a writer
while a buffer it borrows a name from is gone or changed counts as undefined. Addresses of boxes are
not reused, two writers on one file name do not interfere, a panic ends the process. The `cdef` of
`rust.py` declares `int` where the library has `u8` and `i64`; that the callee still sees the number is
taken for granted. The file system is three functions (has the path a parent, can it be created, which
faults occur).

The crate `thrift` (not in /repo) is represented by its binary protocol, written down after the published
format: integers, strings, field and message headers in both forms, `skip` with its depth limit of 64,
application exceptions, `handle_process_result`. A negative length is taken as a protocol error. The framed
transports hand on bytes unchanged; writing to a connection does not fail. Error texts made by the crate are
left open.

Not modelled: logging,
`Display` implementations (parameters where they matter), sockets, dead code
(`ChunkWriter::get_metadata`: never called; it would always panic because the field it unwraps is never set), memory exhaustion, capacity of `Vec`.

Tests of the model and of the readers on the specification side, not proofs: `TCodec`, `TFile`, `TMlog` compare the
model with the values asserted in the repository's tests; `TRead` reads the byte arrays of these tests with the readers
of `SReader`, `SIndex` and `SSnappy`.

## 4. Properties: what is modelled and how it is proved

| property | model | specification | proofs | theorems in |
|---|---|---|---|---|
| C01-C03 variable-length integers, strings | `MVarint` | `SFormat` (LEB128, zig-zag), `SVarRead` | `PVarint`, `PVarRead` | `PropertiesCodec`, `PropertiesVarRead` |
| C04-C08 TS_2DIFF and PLAIN columns | `MEnc` | `SFormat` | `PPack`, `PTs2`, `PCol` | `PropertiesCodec` |
| C09-C12 statistics | `MStats`, `MFloat` | `SStats` | `PStats`, `PStats2`, `PFloat` | `PropertiesStats` |
| C13, C14 pages and chunks | `MChunk` | `SChunk`, `SReader` | `PChunk` | `PropertiesChunk` |
| C15, C16, C19, C25-C31, C35, C40 writer histories | `MWriter`, `MIo` | `SHist`, `SReader` | `PFlush`, `PWriter`, `PRefine`, `PScan`, `PHist`, `POffsets`, `PCrash`, `PCompare`, `PBisim`, `PMem` | `PropertiesWriter` |
| C17, C18, C20, C21, C24 index of closed files | `MIndex`, `MIo` | `SIndex`, `SReader` | `PIndex`, `PSeries`, `PLookup`, `PClose`, `PFile`, `PFoot`, `PStored` | `PropertiesIndex`, `PropertiesClose` |
| C21-C23 bloom filter, hash, panics of close | `MBloom`, `MMurmur` | `SMurmur`, `SBloom` | `PMurmur`, `PBloom`, `PPanic` | `PropertiesBloom`, `PropertiesClose` |
| C32-C34 faulty sinks | `MSink`, all of the writer | `SDriver` | `PSink` | `PropertiesSink` |
| C36, C37 type codes, schema builders | `MTypes`, `MSchema` | `SSchema` | `PSchema` | `PropertiesSchema` |
| C38, C39 modification log, sync sender | `MMlog`, `MSync` | `SMlog` | `PMlog` | `PropertiesSync` |
| C44 sync sessions | `MSync` | `SSync` | `PSync` | `PropertiesProtocol` |
| C47 compressors that fail | `MChunk` | `SComp` | `PComp` | `PropertiesComp` |
| C48 page boundaries | `MChunk`, `MFloat` | `SPage` | `PFloat32`, `PPage` | `PropertiesPage` |
| C49 Thrift service | `MThrift` | `SThrift` | `PThrift`, `PThriftSync` | `PropertiesThrift` |
| C50 sync over a connection | `MThrift`, `MSync` | `SThrift`, `SSync` | `PThriftSync` | `PropertiesThrift` |
| C51 sizes, whole sessions | all of the writer | `SSize`, `SSession` | `PFloat64`, `PFileSize`, `PSession` | `PropertiesSize` |
| C52 example programs | `MExample` | `SExample`, `SSession` | `PExample` | `PropertiesExample` |
| C53 more than 65536 series | `MIndex` | `SIndex` (`lost_device`) | `PDeep`, `PDeepFile`, `PDeepSession` | `PropertiesDeep` |
| C54 files closed more than once | `MIo`, `MWriter` | `SReclose`, `SIndex`, `SReader` | `PReclose`, `PRecloseIndex`, `PRecloseFile` | `PropertiesReclose` |
| C55 the bytes of the file | all of the writer | `SLayout` (with `SPage`, `SIndex`) | `PLayoutCol`, `PLayoutStats`, `PLayoutChunk`, `PLayoutFile`, `PLayoutIndex`, `PLayoutRows`, `PLayoutFilter`, `PLayoutClose`, `PLayoutSession`, `PLayoutProps` | `PropertiesLayout` |
| C56 every outcome of a session | all of the writer | `SComplete` | `PComplete` | `PropertiesComplete` |
| C57 disks that fail and recover | all of the writer | `SFault`, `SReclose` | `PFault`, `PLedger` | `PropertiesFault` |
| C58 every outcome in a debug build | all of the writer, `Debug` profile | `SDebug`, `SComplete` | `PDebugHash`, `PDebugCol`, `PDebug` | `PropertiesDebug` |
| C59 files of any size | all of the writer | `SLarge`, `SAmple`, `SLayout` | `PScan` … `PStored`, `PLayoutSession`, `PFileSize`, `PLarge` | `PropertiesLarge` |
| C60 points in memory | `MWriter`, `MChunk` | `SBuffer`, `SLayout` | `PBuffer`, `PBufferCase` | `PropertiesBuffer` |
| C61 sessions with any number of closes | all of the writer | `SAgain`, `SAgainReply`, `SLayout`, `SReclose` | `PAgainClose`, `PAgain`, `PAgainReply` | `PropertiesAgain` |
| C62 sessions with names of any kind | all of the writer | `SDots`, `SDotsReply`, `SAgain`, `SAgainReply`, `SLayout` | `PDots`, `PDotsClose`, `PDotsReply` | `PropertiesDots` |
| C63 index of files with names of any kind | all of the writer, read back | `SDotsIndex`, `SDots`, `SIndex`, `SReader` | `PDotsIndex`, `PDotsReach` | `PropertiesDotsIndex` |
| C64 files written through the C and Python interfaces | `MFfi`, `MPy`, all of the writer | `SFfiExact`, `SFfi`, `SPy`, `SLayout`, `SComplete` | `PFfiAsked`, `PFfiExact` | `PropertiesFfiExact` |
| C65 the program `_main.rs` | `MSyncMain` | `SSyncMain`, `SSync`, `SMlog` | `PSyncMain` | `PropertiesSyncMain` |
| C66 comparison of errors | `MErrors` | in the statements | `PErrors` | `PropertiesErrors` |
| C67 the program in `rust.py` | `MPyMain` | `SPyMain`, `SExample`, `SSession` | `PPyMain` | `PropertiesPyMain` |
| C68 the Snappy format | the compressor is a parameter | `SSnappy` | `PSnappy` | `PropertiesSnappy` |
| C69 where both builds agree | `MWriter` | `SBuild` | `PBuild` | `PropertiesBuild` |
| C70 iteration orders | `MWriter`, `MIndex` | `SOrder` | `POrder` | `PropertiesOrder` |
| C71 the schema log on any disk | `MMlogRun` | `SMlogRun` | `PMlogRun` | `PropertiesMlogRun` |
| C72 any number of index records | all of the writer, read back | `SMany`, `SDots`, `SDotsIndex` | `PMany`, `PManyClose`, `PManyIndex`, `PManyLost` | `PropertiesMany` |
| C73 causes of panics on any disk | all of the writer | `SCause` | `PCause`, `PCauseIo`, `PCalm`, `PLean` | `PropertiesCause` |
| C45 C interface | `MFfi` | `SFfi` | `PFfi` | `PropertiesFfi` |
| C46 Python classes | `MPy` | `SPy` | `PPy` | `PropertiesFfi` |
| C41, C42 debug against release builds | all | `SHist` | `PProfile`, `PPanic` | `PropertiesProfile` |
| C40, C43 memory estimate, progress of writes | `MWriter` | `SHist` | `PSize`, `PBound`, `PMem` | `PropertiesBound` |

Method in short:

* Codecs: induction on 7-bit groups; the packed payload is read as one big-endian number.
* Statistics: every accumulation is a tree of merges over pages (`tree_stats`); fold invariants.
* Writer: `trace` relates a reachable writer state to the history of calls (`hist`: flushed points,
  recent points). The invariant `winv` (PRefine.v) says that the file is exactly the items written so
  far and that every open chunk is the run of its recent points; every call preserves it.
* Closed files: the independent readers (scan from the front, or from the tail through footer, root,
  measurement nodes, time series metadata, chunk offsets) are run on the bytes of the model.
* Files closed more than once: `ctrace` follows the list of time series metadata, which only close
  changes and which close never clears. Each close appends one entry per series with data; the readers
  are then run on the bytes of the last close (`PReclose*.v`). `few_entries sc n k` bounds the entries of
  a device by k, with n closes and every declared series at each of them.
* Panics of close: flushing is total in a release build on reachable states (`PPanic.v`), the index is
  total for at most 256 devices (of any number of measurements), so the filter decides.
* Panics on any disk (C73): invariants that do not mention the points (types of the statistics agree with the schema,
  a first page keeps its statistics, the index refers to declared names only) hold after every call, whatever was
  refused; `PCalm.v` adds that no page is full, `PLean.v` that the encoders hold at most 34 bytes per point, so that
  the memory estimate of up to 4095 series does not wrap and is positive once a point is buffered; up to 128 series it stays
  below the flush threshold.

Hypotheses that recur: `good_snap` (round trip and size bound of the Snappy parameter), `schema_ok`
(names are distinct and shorter than 2^31 bytes), `ops_ok` (arguments in machine range, fewer than 2^32
points), file shorter than 2^32 bytes (C59 lifts this bound), `h_recent h = [] \/ 0 < h_counted h` (the writer counts records
only of calls that returned `Ok`, so points of a failed batch alone are not flushed: C30),
`no_dots` (measurement names without dots: without it the claim is refuted, C24), `small_devices`
(at most 65536 measurements per device: beyond that leaf nodes are lost, C53; C72 describes the bytes and what is
found in every case). C20 also gives the shape of
every measurement node (`node_shape`: one entry per 256 series, named after the first, its range holding
exactly these).

## 5. Assumptions printed

`Print Assumptions` after every theorem in `Properties*.v` answers "Closed under the global
context". No axiom of the standard library is used by a property. (The checker's listing of the whole
set of loaded libraries also shows the `Coq.ssr.ssrunder.Under_rel` constants, which `lia`'s
plugin files load; no theorem depends on them.)

## 6. Wrong programs (`seeded/LOG.jsonl`)

Each line is one edit of the model. The files were rebuilt with every failing proof cut out, to see how far the damage
goes. `theorems_failed` lists theorems whose proofs use a lemma that no longer proves. This shows that the proof breaks,
not that the theorem became false; whether the statement itself excludes the edit was judged by reading. Where a statement
turned out too weak, `theorems_tightened` names what changed. `run` marks entries whose build was stopped early.
Edits that break no claim are marked `none` in `claim_broken`.
