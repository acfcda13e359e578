# Formal model of rs-async-zip (async_zip 0.0.18) in Rocq (Coq 8.16.1)

## Approach

The crate is modelled function by function as total Gallina functions over `list byte`
(`Coq.Init.Byte.byte`, so every list is a legal Rust `Vec<u8>`) and `N` (unsigned integers;
the Rust width is enforced by `to_le` truncation where the Rust code casts with `as`, and by
explicit range predicates where the Rust type guarantees it).

* **Results.** Every fallible function returns `res A = Ok | Err zip_error | Panic cause`.
  A Rust panic (unwrap, slice out of range, arithmetic overflow with overflow checks on,
  capacity overflow, explicit `panic!`) is the explicit `Panic` value. Overflow behaviour is a
  parameter (`overflow_checks : bool`), so both debug and release builds are covered.
* **Source (AsyncRead + AsyncSeek).** A byte string, a position, and a *schedule*: a list of
  adversarial poll outcomes (`Pending`, deliver at most k bytes, fail). When the list is used
  up the source is cooperative. Every terminating run uses finitely many polls, so this covers
  every terminating behaviour. `read`, `read_exact`, `take(n).read_to_end`, `seek` are the
  loops of futures-lite over `poll_read`. Seeks are done at once; `Seeks` is the same with
  seeks that are pending, fail or are refused.
* **Sink (AsyncWrite).** The bytes accepted so far plus a schedule of poll outcomes (`Pending`,
  accept at most k bytes - including 0 -, fail, i.e. also transient faults).
  A caller that drops a write future between polls is, for the bytes in the sink, the same as
  a sink that fails at that poll.
* **Codecs.** async-compression is not in /repo. An arbitrary codec is a record of functions
  (`codec`: a streaming encoder as a state machine, and a decoder); theorems that need it take
  the visible premise `codec_ok`: decoding what the encoder produced, followed by anything,
  gives back the input and consumes exactly the encoder's output. A toy instance shows the
  premise is satisfiable.
* **CRC-32 and UTF-8 validation** (crc32fast, core::str) are modelled concretely, and are
  themselves related to independent specifications.

## Files (rocq/theories)

| kind | files |
|------|-------|
| model | `Base` (bytes, integers, results), `Crc32`, `Utf8`, `ZString`, `ZDate`, `Headers` (spec/*), `ExtraField`, `Entry`, `IO` (sources, sinks, futures-lite loops), `Locator`, `Reader`, `EntryReader`, `StreamReader`, `Writer`, `FsReader` (tokio/read/fs.rs), `Builders`, `InnerMut`, `StreamPolls`, `EncoderPolls` (streams of any method that are polled), `DecoderPolls`, `DecoderWalk`, `DecoderSeeks` (entry and stream readers around any decoder), `Piped`, `Relay`, `Merge` (copying between archives, from a stream, and from several), `Careful` (that caller when it compares checksums), `AwaitedWrites` (streams awaited around any encoder), `GiveUp` (the writer with calls that are dropped while pending), `Seeks` (the seek reader with such calls, and seeks that wait and fail), `ReaderPolls`, `Extract` (the extraction example), `Compress` (the compression example), `Multipart` (the upload example), `Features` (the readers in other builds of the crate), `Messages` (the texts of errors), `Vectored` (vectored writes), `Inflate` (a DEFLATE decoder, as an instance of `codec`) |
| specification, independent of the model's functions | `SpecFormat` (record tables), `SpecCrc` (polynomial long division), `SpecUtf8`, `SpecArchive` (what an archive is, what should be reported), `SpecRead`, `SpecWrite` (what should be written), `SpecStream`, `SpecCopy`, `SpecFront` (entries of any origin lying one behind the other), `SpecOutcome` (how stream writes end), `SpecBuild`, `SpecOrdinary` (conditions a caller can check), `SpecSize` (the length of an archive), `SpecRecut`, `SpecPolls`, `SpecFeatures`, `SpecWork`, `SpecReadPolls`, `SpecExtract` (when a path is inside a directory), `SpecBack` (what should be on the disk after writing and extracting), `SpecStrict` (an executable check of archives, from APPNOTE), `SpecAccept` (what the checker sees), `SpecExact` (what bytes say, read leniently), `SpecThrough` (the same with the contents), `SpecCompress` (what lies below a directory), `SpecMultipart`, `SpecSettle` (copies of copies), `SpecImage` (the archive as one function), `SpecGiveUp`, `SpecTrouble`, `SpecSession` (how every call of a session ends), `SpecSeeks`, `SpecSizeAny` (lengths with compressed data), `SpecSalvage` (what a cut archive still says), `SpecPad` (bytes behind an archive), `SpecLocality` (the bytes that opening looks at), `SpecRefuse`, `SpecLabour` (work of the writer), `SpecTold` (what an archive tells), `SpecApart` (entries that share no bytes), `SpecHanded` (data compressed beforehand), `SpecSpells` and `SpecDirectory` (when numbers spell a signature), `SpecRepack`, `SpecLax` (the strict check with two things overlooked), `SpecInterop` (what other readers need of the end of an archive), `SpecAgree` (when two readers mean the same archive), `SpecContract` (what a caller that polls can rely on), `SpecEncoder` (the contract of an encoder that is polled), `SpecDecoder` (that of a decoder), `SpecWalk` (what a walk gives), `SpecLively`, `SpecAwake` (encoders, decoders that do not stop without reason) |
| lemmas | `*Facts`, `*Proofs`, `RoundTrip`, `StreamWalk`, `ManyFiles`, `FarFiles` (the last two: witnesses with 65536 entries / beyond 4 GiB, kept symbolic), `StreamOutcome`, `AllWork`, `AcceptFront`, `InflateEnds`, `ExactTop`, `CompressBack` |
| data for the examples | `Samples`, `WriteSamples`, `EncoderSamples`, `LivelySamples`, `DecoderSamples`, `AwakeSamples`; `Fixtures` and `Conformance` (the crate's own tests) |
| results | `Properties_Leaf`, `Properties_Read`, `Properties_Write`, `Properties_Archive`, `Properties_Stream`, `Properties_Further`, `Properties_Front`, `Properties_More`, `Properties_Ordinary`, `Properties_Size`, `Properties_Recut`, `Properties_Polls`, `Properties_Features`, `Properties_Work`, `Properties_ReadPolls`, `Properties_Extract`, `Properties_Back`, `Properties_Strict`, `Properties_Accept`, `Properties_Exact`, `Properties_Through`, `Properties_Examples`, `Properties_Settle`, `Properties_Image`, `Properties_GiveUp`, `Properties_Trouble`, `Properties_Session`, `Properties_Seeks`, `Properties_Recognize`, `Properties_Salvage`, `Properties_Messages`, `Properties_Pad`, `Properties_Locality`, `Properties_Detect`, `Properties_Refuse`, `Properties_Labour`, `Properties_Told`, `Properties_Vectored`, `Properties_Apart`, `Properties_Handed`, `Properties_Commentless`, `Properties_Repack`, `Properties_Interop`, `Properties_Agree`, `Properties_RepackAny`, `Properties_Contract`, `Properties_Encoder`, `Properties_Decoder`, `Properties_Walk`, `Properties_Way`, `Properties_Lively`, `Properties_Awake`, `Properties_PolledImage`, `Properties_Blame`, `Properties_Made`, `Properties_Endure`, `Properties_Remains`, `Properties_Harsh`, `Properties_Piped`, `Properties_Relay`, `Properties_Rescue`, `Properties_Hands`, `Properties_Merge`, `Properties_Careful`, `Properties_Lax`: only the property theorems, each closed by `exact`, `Print Assumptions` beneath, and an `Example` with a concrete case that meets the hypotheses |

Names: `Cnn_…` is about property Cnn of properties.jsonl; `…_partial` proves it under a
restriction that the statement shows; `…_refuted` gives an input on which the property, as
stated in properties.jsonl, fails in the model (so in the code, as far as the model is faithful).

## Coverage

Every function of `src/` outside the tests, by file. "Plain" are functions that hand over a field, wrap or unwrap
a value, or forward to another function; they have no definition of their own.

| source | modelled by | plain |
|--------|-------------|-------|
| `base/read/mod.rs` | `Reader`: `file`, `cd`, `cd_record`, `lfh_read`, `get_zip64_extra_field`, `get_combined_sizes`, `detect_filename`, `detect_comment`; `Writer.update_zip64` (`get_zip64_extra_field_mut`); `Features` for other builds | |
| `base/read/io/locator.rs` | `Locator`: `eocdr_locate`, `fill_loop`, `reverse_search_buffer` | |
| `base/read/io/combined_record.rs` | `Reader.combine`, `combined_from` | |
| `base/read/io/mod.rs` | `IO.read_bytes`, `Reader.read_string` | |
| `base/read/io/{entry,hashed,compressed}.rs` | `EntryReader`: `er_new`, `er_poll_read`, `inner_poll_read`, `er_compute_hash`, `er_read_to_end_checked`, `er_read_to_string_checked`; `ReaderPolls` for single polls, vectored ones included | `into_inner`, `entry`, `into_with_entry*` |
| `base/read/io/owned.rs` | owned and borrowed readers behave alike | all |
| `base/read/{seek,mem}.rs` | `EntryReader`: `seek_new`, `seek_reader_at`, `mem_new`, `mem_reader_at`; `Seeks` | `from_raw_parts`, `file`, `data`, `inner_mut`, `into_inner`, `with_tokio` |
| `base/read/stream.rs` | `StreamReader`: `stream_next`, `skip_loop`, `stream_done`, `consume_data_descriptor` | `new`, `with_tokio`, `into_inner`, `reader`, `reader_mut` |
| `base/write/mod.rs` | `Writer`: `zw_new`, `write_entry_whole`, `write_entry_whole_precompressed`, `stream_open`, `zw_close`, `put_path`, `put_comment`, the `force_*` and `comment` operations; `InnerMut` | `with_tokio` |
| `base/write/entry_whole.rs` | `Writer`: `whole_write_body`, `enforce_zip64*`, `utf8_flag`, `enc_all`; `Crc32.crc32` | `from_raw`, `from_precompressed` |
| `base/write/entry_stream.rs` | `Writer`: `stream_open`, `stream_write`, `stream_flush`, `stream_close`; `StreamPolls` and `EncoderPolls` for single polls | |
| `base/write/compressed_writer.rs` | `Writer`: `stream_open`, `compressed_close`, `shutdown_ignored_close`; `StreamPolls.raw_polls` | `into_inner` |
| `base/write/io/offset.rs` | `Writer`: `ow_poll_write`, `ow_poll_flush`, `ow_poll_close`; `Vectored.ow_poll_write_vectored`; `InnerMut.inner_write` | `new`, `offset`, `into_inner` |
| `spec/parse.rs`, `spec/header.rs` | `Headers` (records, both directions), `ExtraField.parse_extra_fields`, `Reader.*_from_reader` | |
| `spec/extra_field.rs` | `ExtraField` | |
| `spec/{compression,attribute,version,consts}.rs` | `Headers`, `Entry.as_needed_to_extract`, `Features.b_compression_try_from` | |
| `entry/{mod,builder}.rs` | `Entry`, `Builders.setter`, `Reader.seek_to_data_offset` | accessors, `From`, `Deref` |
| `file/{mod,builder}.rs` | `Builders.file_builder` | accessors, `From` |
| `date/{mod,builder}.rs` | `ZDate` | `new`, `build`, `From` |
| `string.rs` | `ZString` | |
| `tokio/read/fs.rs` | `FsReader` | `file`, `path` |
| `utils.rs` | `Reader.assert_signature` | |
| `error.rs` | `Base.zip_error`, `Messages.error_text` | |
| `examples/file_extraction.rs` | `Extract` | |
| `examples/cli_compress.rs` | `Compress` | `main` (messages and exit status) |
| `examples/actix_multipart.rs` | `Multipart` (`create_archive`) | `do_main`, `handler` |

## Plan and outcome per property

| id | how | outcome |
|----|-----|---------|
| C01 | writer as operations over an adversarial sink; invariant "every recorded entry is backed by its image in the sink" by induction over the history; reader run on the layout; composition | holds for archives that can be told for what they are (`unambiguous`); false in general |
| C02 | same invariant against the layout in `SpecWrite` | holds |
| C03 | `file` run symbolically on any image with the layout, induction over the directory | holds |
| C04-C06 | symbolic evaluation on byte lists; case analysis on flag bits | hold |
| C07, C08 | induction over the field list | exact relation proved; false for disk numbers / trailing empty fields |
| C09 | case analysis | holds without overflow checks; panics with them |
| C10 | validator equals "concatenation of encodings of scalar values"; invariant over constructors and readers | holds |
| C11 | write-side helper, then read-side detection, over the encoding matrix | holds for `texts_clear`; false for stale or unknown Unicode fields |
| C12 | bit arithmetic | holds |
| C13 | bit arithmetic | false (setters OR); exact behaviour proved |
| C14 | loop invariant over the descending windows | holds |
| C15 | from C01/C03 with the exact condition | false for comments with the signature or over 65535 bytes, true otherwise |
| C16-C18 | invariant over poll outcomes; simulation between a scheduled run and the fault-free run, closed under sequencing | hold |
| C19-C21 | invariant on recorded directory entries; closed form of the stream writer | partly false, see findings 1, 4, 5, 17 |
| C22-C24, C45 | closed form of each operation's outcome on arbitrary states | C23 holds; others with exact conditions |
| C25 | flush/close counters of the sink | holds |
| C26, C27 | simulation between sources; reading as a function of the slice | hold |
| C28, C29, C43 | hash state invariant; linear algebra of the CRC step over GF(2) | C29, C43 hold; C28 for the first checked read |
| C30, C31 | state machine over interleavings / histories | hold |
| C32, C35-C37, C42 | direct, over all inputs | hold |
| C33, C34 | stream reader run on the layout, induction over entries | hold except for empty archives, ambiguous and 64-bit descriptors |
| C38 | the only panic sites | exact characterisation; false |
| C39 | cut-point analysis | holds for cuts before the comment of an archive with one end signature; false otherwise |
| C40 | induction over generations of copies | holds without ZIP64 field; false for streamed entries |
| C41, C44 | from C01/C03 | hold under `unambiguous`; a comment with a forged directory refutes them in general |
| C46 | stream reader run on any sequence of local entries, induction over it | holds with 32-bit descriptors; false for 64-bit ones |
| C47 | C03 and C46 side by side | holds if the directory describes the entries before it; false otherwise, nothing compares them |
| C48 | from C01 | holds for unambiguous archives of this crate; false in general, nothing compares size and content |
| C49 | fold over the calls | holds |
| C50 | every writer operation commutes with putting bytes in front of the sink's content | the bytes are the same; they do not read back together |
| C51 | reduction to the in-memory reader; case analysis on what opening the path gives | holds while the file stays; a replaced file is noticed by the CRC only |
| C52 | outcomes of the calls (C22) give success; where a false signature would have to lie in the end record or the last directory record, byte by byte, gives `unambiguous`; then C01 | holds |
| C53 | induction over the calls: bytes in the sink plus bytes of the collected directory records grow by `op_size`; the layout facts behind C02 give the lengths; for compressed data the same over the calls of C77 | holds |
| C54 | every operation commutes with a change of the sink's flush count; an unencoded stream body only appends its bytes | holds |
| C55 | as C50, with the bytes in the middle | the calls and bytes are undisturbed; the archive does not open |
| C56 | every poll appends what it reports, to the sink, the count and the hash alike; C17 and C54 for the rest of the session | all but the last sentence: closing through the trait does nothing, the entry is missing unless the writer's own `close` follows |
| C57 | the two builds step by step: alike up to the first method that is not compiled in | holds, but a 32-bit target may refuse by a panic |
| C58 | every answer of the source is charged to a byte; windows of the locator by arithmetic; records past the end cost one answer | holds (stored data; the work for compressed data is the codec's) |
| C59 | every poll takes a reader to one whose remaining content is what is left; opening seeks absolutely | holds |
| C60 | a path is its pieces between slashes; pushing a relative path appends pieces; induction over the entries | holds for Unix paths; the example checks no CRC |
| C61 | C52 gives the archive and its reading; where names go by splitting and pushing; induction over the entries against a disk that refuses only what stands in the way; C61_told has C01 in the place of C52 | holds |
| C62 | a checker from APPNOTE alone, run on the layout of the bytes that C33 gives: the checker's reading of each piece is computed, then induction over the entries | partial: holds while nothing of ZIP64 is put down for entries, and then exactly if directories are named in UTF-8 or their method needs 2.0; a default stream fails (version, descriptor) |
| C63 | the checker is inverted: from each accepted record the raw image that the reader parses, then the opening argument of C07 on raw images instead of well-formed members | partial: an end signature in the comment or an incomplete Unicode field defeats the reader |
| C64 | the checker is inverted entry by entry: local header, data, descriptor; the steps of the stream reader (C45) on each; for DEFLATE, that appending bytes changes no step of the decoder | partial: empty archives, stored data with a descriptor, 64-bit descriptors |
| C65 | the records as relations between bytes and numbers (SpecExact), without the reader's loops; each parser step is shown to be the relation in both directions, and the relations to be functional | proved |
| C66 | sizes along the relations of C65 | proved |
| C67 | as C65, for the local header | proved |
| C68 | C67 for each header, the decoder's extent for the data, both forms of descriptor; a caller with any plan of reading and skipping follows the relation, in both directions; the relation is functional because the caller is | proved |
| C69 | closed form of the seek to the data, and C65 for the directory | proved |
| C70 | invariant of the breadth-first walk (what is listed, each once, with its parent listed); cutting the path at the directory; C61 for the way back, C91 for whether the archive opens | partial: not for the root, extraction needs names that it leaves alone, and the numbers at the archive's end must not spell a signature |
| C71 | the calls made are a history of stream writes; C91 for reading back | partial |
| C72 | a whole write is a precompressed write; what strings and fields become in one, two and more copies | proved |
| C73 | the Unicode fields as functions; induction over the calls with offsets, records and the ZIP64 flag; then `close` | proved |
| C74 | the writer again, in a monad where a pending poll may be the last; a simulation closed under sequencing: a call that is left is a call that fails there, on a schedule with an error in that place; then C01 and C18 | proved |
| C75, C76 | each function of the readers is walked once more, this time keeping the failures; the cases of the specification exclude each other by inversion | proved |
| C77 | `SpecSession` as a second writer on a plain record; one lemma per kind of call says that the two stay in step, refusals included; then induction, and C01's determinism on sinks with faults | proved |
| C78 | the reader again, in a monad where seeks are polled and a pending poll may be the last; a simulation closed under sequencing; a refused seek is followed by a read that would have found nothing | proved |
| C79 | the reader reports what stands at the last signature (C65) and the writer's end record is where the layout (C02) puts it; the comment's length fixes the place | proved |
| C80 | an entry uses the bytes up to the next one only, so it reads the same before a cut; an entry that is cut reads to the end of the source or fails | proved |
| C81 | digits end where the next word begins; otherwise the texts differ at a fixed place | partial |
| C82 | what stands in an archive (C65) stands in it with bytes behind it, if everything announced is there; the writer's layout (C02) has everything; the search is bounded as in C75 | proved |
| C83 | what stands in an archive (C65) is told by the bytes behind the places named in it; the writer's layout (C02) names places behind the entries; entries as in C27 | proved |
| C84 | the register (C43) is linear in its bits; a burst of at most 32 bits goes into it unchanged; the order of its step is 2^32 - 1, from the factors 3, 5, 17, 257, 65537 and matrix powers | proved |
| C85 | a refused call gives back the writer's state as it was, or with the ZIP64 mark set, by cases over the closed forms of the calls (C22); the rest of the session then is the same computation | partial |
| C86 | each await pays for its answer: composed over the writer's calls by a bind lemma | proved |
| C87 | both archives are read back (C01) from the same bytes | partial |
| C88 | induction over the polls; the lag is the sum of what vectored writes reported | partial |
| C89 | offsets and lengths carried along the induction over the session | partial |
| C90 | the two calls unfold to the same body; for streams by the session function of C77 | proved |
| C91 | the end record byte by byte: which of its 18 inner positions can hold the signature; C75 for the error, C79 for the rest | partial |
| C92 | C63 tells what is read, C65 that the writer may be given it, the exact form of C62 what the check sees of the copy | partial |
| C93 | the computation of C62 again, with the ZIP64 fields of both headers read by the checker; the 64-bit reading of a descriptor of placeholders gives a size no entry has | proved |
| C94 | the shape of written archives (C01) read by the specification's reader; an end record that is not complete is passed over | proved |
| C95 | what stands in the bytes (C65, C69) against the specification's reader, record by record | partial |
| C96 | one poll of each kind, case by case over the answers of source and sink | proved |
| C97 | each visit is linked to the call it counts as (closing_step, visit_linked); chains of such links have the shape that C01 and C94 start from | proved |
| C98 | an invariant through any polls: what was read and what is ahead make up the entry's data, what was handed over is a beginning of what it decodes to (poll_midway, polls_midway, to_end_midway) | proved |
| C99 | the invariant of C98 with the position of the source, through done and skip (done_left, skip_left), then along the relation of C68 (walk_takes, walk_reads) | proved |
| C100 | a session of polls is a chain of calls (C97), a chain leaves entries one behind the other (chain_laid), these stand in the order of C68 (walks_goes), and any walk takes them (C99) | proved |
| C101 | write_all, flush and close are polls up to a bound; each poll uses up a wait of the sink or gets a byte in; what was polled is a chain of calls as in C97, whose archive is not to be mistaken for another by the conditions of C52 | proved |
| C102 | each poll uses up an event of the source, gets a byte, or ends; with C98 and C99 for what the polls hand over and C101 for the writing side | proved |
| C103 | the lemmas behind C62, C73 and C93 stated for chains of steps however made (ChainFacts), of which calls, polled and awaited streams are instances | proved |
| C104 | each await accounts for the answers of the sink it consumed (went, blamed); failed and given-up streams are links of a chain (ChainFacts), so shape_back applies | proved |
| C105 | made (SpecMade) has one constructor for each way of writing; each is a chain of steps (ChainFacts), hence has a shape, and the proofs of the cited properties are about shapes | proved |
| C106 | a failed poll leaves the reader midway where it was; each wait or fault uses up an answer of the source, each other poll hands over a byte | proved |
| C107 | the entries of a walk stand in the bytes, whichever way it ended; what stands in a beginning of the bytes is what stands in all of them, up to the entry through which the cut goes | proved |
| C108 | an opened entry's reader starts at the entry's data wherever the source was left, and what a dropped decoder did to the source is to have read from it | proved |
| C109 | what was piped is a prefix of the entry's content at every point, and all of it when the checksum is compared; to the writer each errand is one awaited stream call, so the results about sessions of awaited calls apply | proved |
| C110 | a relay is at once a walk of C107, whose polls are those the pipe made, and a session of awaited stream calls, whose chunks are what those polls handed over; linked entry for entry, the results on both sides apply | proved |
| C111 | what stands in the bytes up to the cut is what stood in the archive (C107); a relay with patience comes by all of it, and the calls it makes are such as the writer takes and ends well with (C101, C110) | proved |
| C112 | what a relay that ended well gave to the writer are the entries that were wanted (C110), and an archive so made can be gone through (C107); hand by hand | proved |
| C113 | the calls of all streams together are one session of awaited stream calls (C101); what each stream gave is counted, and the places add up | proved |
| C114 | the walk of C99 with the hash of what the polls gave (C98) at the end of an entry; that done does not look at the hasher is shown by running it beside one with another | proved |

## Findings

Places where the code, as modelled, does not do what one would expect. Those marked with a
theorem have a machine-checked witness.

1. `entry_stream.rs` close exchanges compressed and uncompressed size when ZIP64 is forbidden (`C21_refuted`, `C19_refuted`).
2. `content_size` counts 8 bytes for `disk_start_number`, which is written in 4 (`C07_refuted`). When the copy of a streamed entry is copied again the archive does not read (`C40_refuted`).
3. The parser drops a trailing field without data (`C08_refuted`); its error path underflows (`C09_refuted`).
4. A whole entry of exactly 0xFFFFFFFF bytes beyond 4 GiB is misread (`C20_refuted`).
5. `TooManyFiles` leaves the refused entry in the list (`C24_refuted`). A central directory over 4 GiB is silently saturated when ZIP64 is forbidden (`C19_refuted_directory`) and not by itself a reason for ZIP64 (`C20_refuted_directory`).
6. Archive comments over 65535 bytes get a truncated length; a comment with `PK\5\6` misleads the locator (`C15_refuted_long`, `C15_refuted`, `C01_refuted`).
7. A non-ZIP64 archive whose 20 bytes before the end record begin `PK\6\7` is read as ZIP64; offsets or sizes that spell `PK\5\6` are taken for the signature (the `end_clear` condition).
8. `relative_offset + 4` overflows; the ZIP64 end record's signature is not checked; `Vec::with_capacity` panics on a huge count (`C38_refuted`).
9. A truncated archive comment is accepted silently (`C39_refuted`).
10. The directory reader ignores the encryption flag. The stream reader refuses Stored entries with descriptors (`C33_refuted_stored`) and reports an error, not the end, on an empty archive (`C33_refuted`).
11. Unicode fields: an unknown version blocks the text, an empty name loses its alternative (`C11_refuted`), a falsely set UTF-8 flag with a stale field makes a copy get another name (`C40_refuted_name`).
12. A ZIP64 field supplied by the caller is written as it is.
13. The offset writer's `poll_write_vectored` forwards without counting (no caller in the crate); `C88_refuted`, and `C88_lags` for the exact lag.
14. Date setters OR onto the old value (`C13_refuted`); years wrap modulo 128.
15. `ExtraFieldTooLarge` can come after the entry was written (`C22_refuted`).
16. Data descriptors are always 32-bit, with 0xFFFFFFFF in ZIP64 mode; a descriptor without signature whose CRC is the signature, and any 64-bit descriptor, misalign the stream reader (`C34_refuted`, `C34_misled`).
17. A second `read_to_end_checked` on one reader fails (`C28_refuted`).
18. `close()` does not flush the sink.
19. A Deflate64 stream panics after its local header was written.
20. A cut archive with a stored nested archive opens as the inner one (`C39_refuted_nested`); a cut stored entry with the CRC of the whole passes the stream reader's check (`C39_refuted_stream`).

21. The local header is never compared with the directory: name, method and sizes may differ (`C47_refuted`, `C47_refuted_names`); the uncompressed size is never compared with the content (`C48_refuted`).
22. `EntryStreamWriter::close` refuses a comment that is too long, and extra fields that outgrow the limit with the directory's ZIP64 field, only after header, data and (for the comment) descriptor were written (`C22_refuted_stream`, `C22_stream_partial`).
23. Offsets count from where the writer started, and the readers have no notion of a preamble: an archive appended to existing content of a sink cannot be opened from the start of it (`C50_refuted`).
24. `tokio::read::fs::ZipFileReader` opens the path anew for each entry; if the file was replaced meanwhile an unchecked read delivers the new bytes under the old entry (`C51_refuted`).
25. Bytes written through `ZipFileWriter::inner_mut` are not counted: all offsets written later are short by their number (`C55_refuted`). The documentation warns in general terms.
26. `AsyncWrite::poll_close` of a stream entry (what generic code calls) succeeds without completing the entry, and data is still accepted afterwards; if only that is called the entry is lost without any error (`C56_refuted`).
27. On a 32-bit target 98 bytes that claim twenty million entries make `Vec::with_capacity` panic (`C57_refuted`); on 64 bits this takes a much larger claim (finding 8).
28. `examples/file_extraction.rs` copies from `reader_without_entry` and so never compares the CRC: damaged content is extracted without complaint (`C60_unchecked`). A name that is not UTF-8 makes it panic.
29. `ZipDateTime::default()`, which every entry without a date carries, is the 0th day of the 0th month of 1980: no date, so that `as_chrono` gives none (`C12_default`).
30. `examples/file_extraction.rs` takes a backslash in a name for a separator: files called `a\b` and `a/b` are written without complaint, and extraction panics at the second (`C61_backslash`).
31. `examples/cli_compress.rs` and `examples/actix_multipart.rs` are guarded by `cfg(features = "deflate")` (for `feature`), so that their bodies are never compiled; they would not compile either (`tokio::fs::File` is no `futures` writer, `async_zip::write` does not exist). They are modelled as they read: C70 and C71 say what they would do.
32. `spec/version.rs` `as_needed_to_extract` looks only at the method and at whether the name ends in `/` as a string: entries with ZIP64 fields announce 1.0 or 2.0 instead of 4.5, and a directory whose name is not declared as UTF-8 announces 1.0 instead of 2.0 (`C62_refuted_version`).
33. `base/read/io/mod.rs` `read_bytes` uses `take(n).read_to_end`, so that a name, a block of extra fields or a comment that the data cuts short is taken as it is, without an error: 68 bytes open as an archive whose only entry has the end record for a name (`C65_lenient`).
34. `examples/cli_compress.rs` removes `input_dir_str.len() + 1` bytes from every path. For the root that is one byte too many: the first letter of every path is lost (`C70_root_refuted`), or the example panics in the middle of a letter (`C70_root_panics`). Directories without files leave nothing in the archive, and an archive made inside the directory it is made of goes into itself.
35. `examples/actix_multipart.rs` does not look for parts of the same name: they become entries of the same name (`C71_twice`), which the extraction example refuses with a panic.
36. A copy loses the last extra field of an entry if that has no payload, and the next copy loses the next one (`C72_empty`); a name of raw ASCII bytes comes back as text and may get a Unicode field only in the second copy (`C72_second`). So the first copies of an archive may differ from each other; later ones do not (`C72_bytes`).
37. The search for the end record goes through 33 windows and so reaches 67456 bytes back, 1899 more than any archive comment allows; the locator's `EOCDR_LOWER_BOUND` suggests 65557 (`C75_fails`).
38. The writer sets its ZIP64 mark before it looks at the other limits: a call that is then refused, or a stream that is dropped, still makes the archive a ZIP64 one (`C77_mark`), and an entry refused because of its directory record leaves its local part in the archive (`whole_ends` in `SpecSession`).
39. An archive without entries may say that its directory starts anywhere: nothing is read there. If it says 2^63 or more it opens from memory and not from a file (`C78_far`).
40. An archive comment that holds an end record makes an archive that opens without complaint as another one (`C79_posing`); only the comment reported tells.
41. A cut is not always reported where it is: a cut name or a cut stored entry is told as if it were whole, and only the next call fails (`C80_case`). With overflow checks a cut within the extra fields of a header panics.
42. The messages of `Zip64Needed` are not always so (`C81_refuted`, `C81_large_refuted`): with ZIP64 forbidden the 65536th file is refused as `More than 65536 files in archive`, and an empty file behind 4 GiB of others as `File is larger than 4 GiB`.
43. The search for the end record goes back 67456 bytes whatever the comment length: with a short comment more than 65535 bytes of anything may follow an archive. Names of the directory that run into the end of the data swallow what is appended (`C82_greedy`).
44. With an empty directory and no 64 bit end the 20 bytes before the end record belong to whatever stands in front: leftovers of failed entries, or of another file, that look like a locator make the archive unreadable (`C83_empty`).
45. A refused entry can turn the archive into a ZIP64 one: `enforce_zip64` and `write_lfh` set `is_zip64` before the lengths of name, comment and extra fields are checked. Opening a stream under a name of 65536 bytes on a new writer writes nothing, but `close` then writes 98 bytes rather than 22 (`C85_refuted`).
46. Two sessions can leave the same bytes and mean different things: what a given-up stream wrote stays in the archive, and a comment is not searched for end records, so an archive without entries and one with an entry can coincide (`C87_refuted`).
47. The reader accepts entries that share their data, any number of records for one file, so what can be read from an archive of stored files is not bounded by its length (`C89_refuted_shared`).
48. The reader looks for the last end signature in the file, not for an end record that reaches to the end of the file. The end record's own numbers can spell it: 19280 empty files, 12885 of them with names of two letters and the others with names of one, make an archive that was written without an error and that this crate refuses with `UnexpectedEof` (`C91_refuted`; `C71_refuted` for an upload of 19280 parts). No comment is needed. C91 lists all seven coincidences.
49. Copying an archive with a directory under a name in an old encoding lowers the version it announces from 2.0 to 1.0 (`C92_refuted`): whether an entry is a directory is asked of the name as UTF-8 text only.
50. Two archives in one file (`C95_refuted`): the end record is taken where its signature appears for the last time, whether or not its comment reaches to the end of the file. An archive put into the comment of another, with one byte behind it, is what this crate opens and reads without complaint, while readers that look for a complete end record see the outer archive. The writer accepts such a comment.
51. Repeating a write that failed (`C97_needed`): an encoder that takes data in before the sink fails on its output reports an error and no count, so checksum and size miss what it took in. A caller that repeats the write, as on transient errors, gets an entry that closes without error and fails its checksum when read. The stream writer keeps no note that a poll failed. This rests on how the encoder works (its source is not in /repo), not on the crate's code alone.

## Trusted base

Coq 8.16.1 kernel and `coqchk`. No axioms: `Print Assumptions` of every property theorem says
"Closed under the global context"; no axiom of the standard library is used in any proof. (The
checker's list of library axioms names three constants of `Coq.ssr.ssrunder`, which come with
loading the standard library's tactics and are not used.)

The model is written by hand from the source text: its fidelity is by inspection, with each
definition citing the lines it models. `Conformance` runs the crate's own test suite on the model: the fixture archives of /repo byte for
byte (`Fixtures`), each test an `Example` of the same name with the same expectation. For the deflated
ones there is a DEFLATE decoder (`Inflate`); with an encoder that emits stored blocks it is proved to meet
`codec_ok` (`flate_ok`), so the law asked of codecs is met by the real format. zstd, bzip2, lzma and xz
fixtures are not run. Assumed about code outside /repo, visible in the model:

* futures-lite: `read_exact`, `take(n).read_to_end`, `write_all`, `seek` are the loops in `IO`/`Writer`;
* async-compression: an arbitrary record of functions (`codec`); laws are premises of theorems (`codec_ok`), never axioms; polled, its encoder is a record `engine` with the premises `engine_ok` and (C101) `engine_lively`, which `buffered` in `EncoderSamples` is proved to meet, its decoder a record `decoder` with the premises `decoder_ok` and (C102) `decoder_lively`, which `peeking` and `biting` in `DecoderSamples` are proved to meet; `toy` codecs in `Samples` satisfy them;
* dropping a future runs no code of its own, and whenever the sink is pending the call is (no executor in between);
* crc32fast and `core::str::from_utf8`: concrete functions, proved equal to textbook definitions;
* chrono: components and validity of dates only;
* for `Extract`: `PathBuf::push`/`join`/`parent` on Unix byte paths, `sanitize_filename::sanitize` as a function with the law `plain_names`, the file system as arbitrary answers (no symbolic links);
* for `Compress` and `Multipart`: the file system as answers that do not change while the example runs, `read_dir` with the law `honest` (each name once, not empty, no slashes), actix_multipart as a list of parts and chunks with errors anywhere, made-up names as a function.

Not modelled: the other tokio wrappers (`compat` adapters over the modelled functions), thread
scheduling and wakers, memory exhaustion, compression algorithms themselves. `Features`
keeps 64-bit arithmetic inside the extra field parser: without overflow checks the number reported in
`InvalidExtraFieldHeader` would wrap at 2^32 on a 32-bit target, which no property mentions.

## Wrong programs

`seeded/LOG.jsonl` has one line per edit of the model that imitates a realistic bug: the edit,
the claim it breaks, the theorems that stop proving, and what was tightened.

Entries named `survey/…` come from five runs in which every definition of the model was edited at
every place by a fixed set of operators: numerals, comparisons, connectives, branches swapped,
fields swapped, one error or constructor for another, a stale state passed on, a term left out.
Of 2495 edits 693 do not type-check; of the other 1802, 1738 stop a proof, 36 keep a proof
script from coming to an end (each of these was looked at by hand: it changes what sample calls do,
or breaks an earlier lemma when that is built alone; one only changes a counter that nothing looks
at), and 28 survived. Of the 28, 15 give the same function or are never reached, and 13 were real: theorems were added or tightened (`C49_new`,
`C28_string_errors`, `C104_call`, `C104_back`, `C104_closed`, `C104_zero`) that fail under them.
In these entries the build stops at the first lemma that fails (`lemmas_broken`); `failed` lists
theorems that rest on it.
