{"id": "C01", "title": "Write-then-read round trip (seekable/in-memory reader)", "statement": "If a ZipFileWriter is driven through any sequence of entry writes and comment() calls and close() returns Ok, then opening the produced bytes with mem/seek ZipFileReader::new succeeds, file().entries() lists exactly the entries whose write call returned Ok, in call order, and read_to_end_checked on the i-th entry returns exactly the bytes written for it; filename, comment, CRC, sizes, method, modification date and attributes are those given (sizes/CRC being those of the data).", "quantifier": "every history of whole/stream/precompressed entry writes (including calls that failed in between), every data size, every sink behaviour (short writes, Pending, transient errors), every read chunking, every codec obeying the stated law", "why_tests_cant": "Tests write four small files in a handful of configurations; the claim ranges over all histories, sizes, chunkings and fault points.", "anchors": ["src/base/write/mod.rs:ZipFileWriter", "src/base/write/entry_whole.rs:EntryWholeWriter::write", "src/base/write/entry_stream.rs:EntryStreamWriter", "src/base/read/mod.rs:file", "src/base/read/mem.rs:ZipFileReader"]}
{"id": "C02", "title": "Writer output conforms to the ZIP layout", "statement": "The bytes produced by a successful close() are, in order: the bytes emitted by the entry writes, one central directory record per recorded entry, the ZIP64 end record and locator iff the archive is in ZIP64 mode, and the end of central directory record with the comment; every field of every record is at the APPNOTE position, little-endian, with the right signature, and every recorded entry's local header sits at the recorded offset followed by its name, extra field and data.", "quantifier": "every history of writes, every sink behaviour", "why_tests_cant": "A reader sharing the writer's misreading of the layout hides the bug from round-trip tests; the layout must hold for all field values.", "anchors": ["src/spec/parse.rs", "src/base/write/mod.rs:close", "src/spec/consts.rs"]}
{"id": "C03", "title": "Reader accepts every well-formed single-disk archive", "statement": "For any byte string laid out as a ZIP archive by the format's definition (arbitrary leading bytes, arbitrary central directory records with supported methods and well-formed extra fields, optional ZIP64 end records, comment up to 65535 bytes) whose end record is the last occurrence of its signature and whose preceding 20 bytes are a ZIP64 locator only if the archive has one, opening succeeds and reports exactly the recorded entries and comment.", "quantifier": "every archive image satisfying the format definition, not only those this crate writes", "why_tests_cant": "The set of conforming archives is unbounded; tests use five fixture files.", "anchors": ["src/base/read/mod.rs:file", "src/base/read/mod.rs:cd_record", "src/base/read/io/combined_record.rs"]}
{"id": "C04", "title": "Fixed-size record codecs are inverse", "statement": "For the local file header, central directory record, end of central directory record, ZIP64 end record and ZIP64 locator, parsing the serialised record gives back every field, for all field values in range, and for the records without a flag word serialising a parsed record gives back the same bytes.", "quantifier": "all field values / all byte strings of the record's length", "why_tests_cant": "Each field has up to 2^64 values; a test fixes one value per field and cannot see overlaps or swapped equal-width fields.", "anchors": ["src/spec/parse.rs", "src/spec/header.rs"]}
{"id": "C05", "title": "General purpose flag decoding", "statement": "Of the 16-bit flag word, encrypted is reported iff bit 0 is set, data_descriptor iff bit 3, filename_unicode iff bit 11; no other bit affects any of them; encoding sets exactly those bits.", "quantifier": "all 65536 flag words", "why_tests_cant": "Tests decode only the few flag words in the fixtures.", "anchors": ["src/spec/parse.rs:GeneralPurposeFlag"]}
{"id": "C06", "title": "Compression method identifiers", "statement": "A 16-bit method id is accepted iff it is one of 0,8,9,12,14,93,95, each maps to its own method and back; any other id is reported as CompressionNotSupported with that id. Of the attribute compatibility ids, 3 is accepted as Unix and Unix is written as 3; any other is reported as AttributeCompatibilityNotSupported with that id.", "quantifier": "all 65536 ids", "why_tests_cant": "Only a few ids appear in tests.", "anchors": ["src/spec/compression.rs", "src/spec/attribute.rs"]}
{"id": "C07", "title": "Extra field declared length equals emitted length", "statement": "For every list of extra fields attached to an entry, the extra-field length written into the headers equals the number of extra-field bytes written, and each field's own size word equals its payload length. A ZIP64 field is refused as incomplete exactly if it holds nothing.", "quantifier": "all extra field lists an entry can carry, including ones obtained by reading another archive", "why_tests_cant": "The set of lists is unbounded and the faulty shapes are not produced by the tests.", "anchors": ["src/spec/extra_field.rs:count_bytes", "src/spec/extra_field.rs:as_bytes", "src/spec/header.rs:content_size"]}
{"id": "C08", "title": "Extra field list round trip", "statement": "Reading back the extra-field bytes of an entry yields the same list of fields that was written, field by field.", "quantifier": "all lists of extra fields", "why_tests_cant": "Unbounded lists; corner shapes such as a trailing empty field are never tested.", "anchors": ["src/spec/parse.rs:parse_extra_fields", "src/spec/extra_field.rs"]}
{"id": "C09", "title": "Malformed extra fields are rejected without panicking", "statement": "Given any byte string as an extra-field block, parsing returns Ok or Err and never panics, never reads outside the block, and consumes it field by field.", "quantifier": "every byte string and every pair of 32-bit header sizes", "why_tests_cant": "Arbitrary adversarial bytes.", "anchors": ["src/spec/parse.rs:parse_extra_fields"]}
{"id": "C10", "title": "ZipString::as_str only ever exposes valid UTF-8", "statement": "For every ZipString obtainable from its public constructors or from reading any archive, if as_str()/into_string() returns Ok then the bytes are a valid UTF-8 encoding of a sequence of Unicode scalar values (so the internal unchecked conversions are sound), and if the encoding is Raw both return Err(StringNotUtf8).", "quantifier": "every byte string, every constructor, every archive", "why_tests_cant": "Soundness of an unsafe block must hold for all inputs.", "anchors": ["src/string.rs:ZipString", "src/base/read/mod.rs:detect_filename", "src/base/read/mod.rs:detect_comment"]}
{"id": "C11", "title": "File name and entry comment round trip through the encodings", "statement": "Whatever mix of encodings the file name and the entry comment use (UTF-8, UTF-8 with an alternative, raw), the name and comment read back have the same bytes; a UTF-8 string reads back as UTF-8 with as_str() unchanged, an alternative reads back unchanged, and non-ASCII raw bytes stay raw.", "quantifier": "every pair of name and comment strings", "why_tests_cant": "The 3x3 encoding matrix over unbounded strings; tests check one name.", "anchors": ["src/base/write/entry_whole.rs:utf8_without_alternative", "src/base/write/entry_stream.rs:write_lfh", "src/base/read/mod.rs:detect_filename"]}
{"id": "C12", "title": "Date builder and accessors are inverse", "statement": "For every year 1980..2107, month 1..12, day 1..31, hour 0..23, minute 0..59, second 0..59, building a ZipDateTime and reading the components back gives the same components (second rounded down to even), the components occupy disjoint bits, and rebuilding any stored 32-bit date/time from its components gives the same value. With the chrono feature a stored date is reported exactly if it is a day of the calendar and a time of day.", "quantifier": "all component values and all 2^32 stored values", "why_tests_cant": "Tests check one date.", "anchors": ["src/date/mod.rs", "src/date/builder.rs"]}
{"id": "C13", "title": "Date builder setters replace the component", "statement": "Calling a ZipDateTimeBuilder setter on a builder that already has a value for that component makes the built date report the new value.", "quantifier": "every starting date and every in-range component; for the year every i32", "why_tests_cant": "Needs every (old,new) pair; tests only set each component once.", "anchors": ["src/date/builder.rs"]}
{"id": "C14", "title": "End record location finds the last signature", "statement": "Opening an archive looks for the end of central directory record at the last occurrence of its 4-byte signature in the data: the located offset is right after an occurrence, no later occurrence exists, every occurrence within the final 65557 bytes leads to success, and if none exists in that window (nor in the at most 2044 further bytes that get scanned) UnableToLocateEOCDR is returned.", "quantifier": "every byte string of every length and every read chunking", "why_tests_cant": "Buffer-boundary arithmetic over unbounded lengths; tests use three files.", "anchors": ["src/base/read/io/locator.rs:eocdr", "src/base/read/io/locator.rs:reverse_search_buffer"]}
{"id": "C15", "title": "Archive comment may contain any text", "statement": "An archive written with comment(s) and closed successfully can be read back, and file().comment() is s, for every string s.", "quantifier": "every comment string", "why_tests_cant": "The faulty comments are specific byte patterns or very long ones.", "anchors": ["src/base/write/mod.rs:close", "src/base/write/mod.rs:comment", "src/base/read/io/locator.rs:eocdr"]}
{"id": "C16", "title": "Writer offset equals bytes accepted by the sink", "statement": "At every moment, under every behaviour of the underlying writer (Pending, short writes, errors), the offset used for header offsets equals the number of bytes the underlying writer has accepted.", "quantifier": "every sequence of poll outcomes and writes", "why_tests_cant": "All schedules.", "anchors": ["src/base/write/io/offset.rs:AsyncOffsetWriter"]}
{"id": "C17", "title": "Archive bytes do not depend on the sink's schedule", "statement": "For the same sequence of calls, the bytes delivered to the sink and the results returned are the same for every pattern of Pending and short writes.", "quantifier": "every schedule of Pending / partial accepts", "why_tests_cant": "Schedules are unbounded.", "anchors": ["src/base/write"]}
{"id": "C18", "title": "A failing sink leaves a prefix of the archive", "statement": "If the underlying writer fails at any point and the caller stops at the first error, the bytes it accepted are a prefix of the bytes a fault-free run would have produced, and the call that hit the fault returned an error.", "quantifier": "every fault point in every history", "why_tests_cant": "Every crash point.", "anchors": ["src/base/write"]}
{"id": "C19", "title": "force_no_zip64 never emits ZIP64 structures", "statement": "With force_no_zip64 (and without force_zip64), a successful close produces no ZIP64 end record or locator, no entry carries a ZIP64 extra field added by the writer, and every 32-bit size/offset and the 16-bit entry count written is the true value, not a saturated placeholder; otherwise Zip64Needed is returned.", "quantifier": "every history of writes and sizes", "why_tests_cant": "Requires >4 GiB data and >65535 entries in all combinations.", "anchors": ["src/base/write/mod.rs:close", "src/base/write/entry_whole.rs:enforce_zip64", "src/base/write/entry_stream.rs:close"]}
{"id": "C20", "title": "ZIP64 is used whenever a value does not fit", "statement": "Without force_no_zip64, whenever a size, header offset or directory offset exceeds 0xFFFFFFFF or there are more than 65535 entries, the archive carries the ZIP64 end record/locator and the entry's ZIP64 extra field holds the true values, and the reader reports the true values.", "quantifier": "every size/offset/count", "why_tests_cant": "Boundary values of 4 GiB at every field.", "anchors": ["src/base/write/entry_whole.rs", "src/base/write/entry_stream.rs", "src/base/write/mod.rs:close", "src/base/read/mod.rs:cd_record"]}
{"id": "C21", "title": "Stream-written entries record their true sizes and CRC", "statement": "After writing an entry through EntryStreamWriter in any number of writes of any sizes and closing it, the central directory (and the data descriptor) record the CRC32 of the concatenated bytes, the uncompressed length, and the compressed length.", "quantifier": "every chunking, every data, every method, both ZIP64 modes", "why_tests_cant": "All chunkings and sizes.", "anchors": ["src/base/write/entry_stream.rs:close", "src/base/write/entry_stream.rs:poll_write"]}
{"id": "C22", "title": "Over-long names, comments and extra fields are refused before anything is written", "statement": "A file name, entry comment or extra-field block longer than 65535 bytes makes the whole-entry write return FileNameTooLarge / CommentTooLarge / ExtraFieldTooLarge with no byte reaching the sink and the writer still usable; values of up to 65535 bytes are never refused for this reason.", "quantifier": "every name/comment/extra length", "why_tests_cant": "Lengths around the limit in combination.", "anchors": ["src/base/write/entry_whole.rs:write", "src/base/write/entry_stream.rs:write_lfh"]}
{"id": "C23", "title": "Writers do not panic", "statement": "No sequence of writer calls with data of any content panics, except compressing with Deflate64, which is documented as unsupported.", "quantifier": "every history of writer calls", "why_tests_cant": "All unwraps on all inputs.", "anchors": ["src/spec/extra_field.rs:as_bytes", "src/base/write/entry_whole.rs", "src/base/write/compressed_writer.rs"]}
{"id": "C24", "title": "A failed entry write does not disturb other entries", "statement": "If a write call fails (too large, refused ZIP64, transient sink error), entries recorded before it and after it are still listed and readable after close, and the failed one is not listed.", "quantifier": "every interleaving of failing and succeeding calls", "why_tests_cant": "All histories and fault points.", "anchors": ["src/base/write/entry_whole.rs:write", "src/base/write/entry_stream.rs"]}
{"id": "C25", "title": "Closing an entry or the archive never closes the caller's sink", "statement": "No entry-level operation closes the underlying writer, so further entries can be written; close() hands the sink back open and unflushed.", "quantifier": "every history", "why_tests_cant": "All histories.", "anchors": ["src/base/write/compressed_writer.rs:ShutdownIgnoredWriter", "src/base/write/mod.rs:close"]}
{"id": "C26", "title": "Reading is independent of how the source chunks its data", "statement": "Opening an archive and reading entries gives the same result for every pattern of Pending and short reads of the source; a source error surfaces as an error, never as different metadata or data.", "quantifier": "every schedule of poll_read outcomes", "why_tests_cant": "Schedules are unbounded.", "anchors": ["src/base/read/mod.rs", "src/base/read/io"]}
{"id": "C27", "title": "An entry's content depends only on its own bytes", "statement": "Reading entry i yields a function of the method, compressed size and the compressed_size bytes starting at its data offset; bytes elsewhere in the archive (other entries, trailing data, comment) do not influence it, and at most compressed_size bytes are consumed.", "quantifier": "every archive and every modification outside the entry's region", "why_tests_cant": "All pairs of archives agreeing on the region.", "anchors": ["src/base/read/io/entry.rs", "src/entry/mod.rs:seek_to_data_offset"]}
{"id": "C28", "title": "Checked reads succeed exactly on matching CRC", "statement": "read_to_end_checked returns Ok(n) iff the underlying read reaches EOF without error and the CRC32 of all bytes delivered by that reader since it was opened equals the recorded CRC; the buffer then holds exactly those n bytes appended; otherwise CRC32CheckError (or the read error) is returned. read_to_string_checked returns the same bytes if they are UTF-8 as well, and otherwise fails as reading does, with InvalidData if the bytes are no UTF-8, or with the error of the check.", "quantifier": "every entry, every chunking, any preceding partial reads", "why_tests_cant": "All chunkings and prior reads.", "anchors": ["src/base/read/io/entry.rs:read_to_end_checked", "src/base/read/io/hashed.rs", "src/base/read/io/entry.rs:read_to_string_checked"]}
{"id": "C29", "title": "Short corruption of a stored entry is always detected", "statement": "If the bytes of a Stored entry are altered anywhere within a window of at most 4 consecutive bytes, read_to_end_checked reports CRC32CheckError.", "quantifier": "every entry content, position and corruption pattern within 32 bits", "why_tests_cant": "2^32 patterns at every position of every content.", "anchors": ["src/base/read/io/hashed.rs", "src/base/read/io/entry.rs"]}
{"id": "C30", "title": "Concurrent entry readers of one in-memory archive do not interfere", "statement": "Any number of entry readers opened from one mem::ZipFileReader and polled in any interleaving each deliver a prefix of their own entry's data and, at EOF, all of it.", "quantifier": "every interleaving of polls and every buffer size", "why_tests_cant": "All interleavings.", "anchors": ["src/base/read/mem.rs"]}
{"id": "C31", "title": "Seek reader entries can be opened in any order after partial reads", "statement": "For any history of opening entries and reading any amount from each, the next reader_with_entry(i) reads entry i from its beginning.", "quantifier": "every history of opens and partial reads", "why_tests_cant": "All histories.", "anchors": ["src/base/read/seek.rs", "src/entry/mod.rs:seek_to_data_offset"]}
{"id": "C32", "title": "Entry index bounds", "statement": "reader_with_entry / reader_without_entry / into_entry with an index not below the number of entries returns EntryIndexOutOfBounds and touches nothing; below it never returns that error.", "quantifier": "every index and archive", "why_tests_cant": "All indices.", "anchors": ["src/base/read/seek.rs", "src/base/read/mem.rs"]}
{"id": "C33", "title": "Stream reader walks the archive entry by entry", "statement": "For an archive written by this crate whose entries all succeeded (no stream-written Stored entries), the stream reader yields the entries in order with the written names and data, skip()/done() leave the source exactly at the next header, and after the last entry next_with_entry returns None.", "quantifier": "every such archive, every read amount before skip, every chunking", "why_tests_cant": "All archives and histories.", "anchors": ["src/base/read/stream.rs", "src/base/read/mod.rs:lfh"]}
{"id": "C34", "title": "Data descriptors are skipped exactly", "statement": "When an entry carries a data descriptor, done()/skip() consume exactly the descriptor, with or without its optional signature and with 32-bit or 64-bit sizes, and leave the source at the next header.", "quantifier": "every descriptor content and form", "why_tests_cant": "All CRC/size values including those equal to the signature.", "anchors": ["src/base/read/stream.rs:consume_data_descriptor"]}
{"id": "C35", "title": "done() requires EOF", "statement": "done() returns EOFNotReached iff data of the entry is still unread, and otherwise yields a reader positioned after the entry.", "quantifier": "every entry and every amount read before", "why_tests_cant": "All read histories.", "anchors": ["src/base/read/stream.rs:done"]}
{"id": "C36", "title": "Unsupported archives are refused", "statement": "Opening a spanned archive (differing disk numbers or differing entry counts) returns FeatureNotSupported; stream-reading an encrypted entry or a Stored entry with a data descriptor returns FeatureNotSupported; a wrong signature is reported as UnexpectedHeaderError with the actual value.", "quantifier": "every header value", "why_tests_cant": "All header combinations.", "anchors": ["src/base/read/mod.rs:file", "src/base/read/mod.rs:lfh", "src/utils.rs"]}
{"id": "C37", "title": "ZIP64 end record precedence", "statement": "When a ZIP64 locator is present, each end-record field is taken from the ZIP64 record iff the 16/32-bit field is saturated, and from the classic record otherwise; without a locator the classic values are used.", "quantifier": "all values of both records", "why_tests_cant": "2^16 x 2^64 values per field.", "anchors": ["src/base/read/io/combined_record.rs:combine", "src/base/read/mod.rs:file"]}
{"id": "C38", "title": "Opening arbitrary bytes never panics", "statement": "ZipFileReader::new on any byte string returns Ok or Err; it never panics and always terminates.", "quantifier": "every byte string", "why_tests_cant": "Adversarial inputs.", "anchors": ["src/base/read/mod.rs:file", "src/base/read/mod.rs:cd", "src/spec/parse.rs:parse_extra_fields"]}
{"id": "C39", "title": "Truncated archives are reported", "statement": "If an archive produced by this crate is cut at any point, opening it with the seekable reader or reading the affected entry with the checked reader reports an error rather than silently returning less.", "quantifier": "every archive and every cut point", "why_tests_cant": "All cut points of all archives.", "anchors": ["src/base/read/io/mod.rs:read_bytes", "src/base/read/mod.rs"]}
{"id": "C40", "title": "Copying entries between archives preserves them", "statement": "Taking an entry read from an archive and writing it with its data to a new archive yields an archive in which that entry has the same name and data, any number of times.", "quantifier": "every entry a reader can return, any number of generations", "why_tests_cant": "Multi-generation histories.", "anchors": ["src/entry/builder.rs:From<ZipEntry>", "src/spec/extra_field.rs", "src/base/write/entry_whole.rs"]}
{"id": "C41", "title": "Unix permissions round trip", "statement": "unix_permissions(m) makes the entry report Some(m), leaves the low 16 attribute bits alone, and survives a write/read round trip.", "quantifier": "all 2^32 attributes and 2^16 modes", "why_tests_cant": "All values.", "anchors": ["src/entry/builder.rs:unix_permissions", "src/entry/mod.rs:unix_permissions"]}
{"id": "C42", "title": "Directory test", "statement": "dir() is Ok(true) iff the name is UTF-8 and its last character is '/', Ok(false) for other UTF-8 names, and Err(StringNotUtf8) for raw names.", "quantifier": "every name", "why_tests_cant": "All strings.", "anchors": ["src/entry/mod.rs:dir"]}
{"id": "C43", "title": "CRC32 is computed incrementally and correctly", "statement": "The CRC used by writers and readers equals the standard CRC-32 (reflected 0x04C11DB7) of the concatenation of the pieces, for every split into pieces; crc32() of the same bytes gives the same value.", "quantifier": "every byte string and every split", "why_tests_cant": "All splits.", "anchors": ["src/base/write/entry_whole.rs:crc32", "src/base/read/io/hashed.rs", "src/base/write/entry_stream.rs"]}
{"id": "C44", "title": "header_offset and header_size", "statement": "For an entry read from an archive written by this crate, header_offset() is the position of its local header, and header_offset()+header_size() is where its data begins whenever local and central extra fields coincide; the data is found correctly even when they differ.", "quantifier": "every archive", "why_tests_cant": "All archives.", "anchors": ["src/entry/mod.rs:StoredZipEntry"]}
{"id": "C45", "title": "Dropping an unclosed stream entry does not affect the others", "statement": "If an EntryStreamWriter is dropped without close(), after closing the archive the other entries are listed and readable and the dropped one is absent.", "quantifier": "every history with dropped streams", "why_tests_cant": "All histories.", "anchors": ["src/base/write/entry_stream.rs"]}
{"id": "C46", "title": "Stream reader accepts every well-formed sequence of entries", "statement": "If the bytes at the source hold, one behind the other, entries of any origin (local header with any extra fields including ZIP64 sizes, data, and a data descriptor with or without signature when bit 3 is set), then the stream reader reports each with what its header says, delivers its content however it is read, reaches the next by skip() or by done() after everything was read, and says at the end what follows: None at the directory, an error at any other signature or at the end of the data.", "quantifier": "all sequences of entries, codecs, read sizes, source schedules", "why_tests_cant": "Unbounded sequences of entries of other writers, all interleavings of partial reads and skips.", "anchors": ["src/base/read/stream.rs", "src/base/read/mod.rs"]}
{"id": "C47", "title": "The directory reader and the stream reader agree", "statement": "On an archive whose directory describes the entries lying before it, reading front to back and opening entries through the directory give the same names, methods, dates and contents in the same order.", "quantifier": "all such archives (classic and ZIP64), and all archives written by this crate", "why_tests_cant": "Relates two independent parsers over all inputs.", "anchors": ["src/base/read/stream.rs", "src/base/read/seek.rs", "src/base/read/mod.rs"]}
{"id": "C48", "title": "The uncompressed size told is the length of the content", "statement": "For every entry that can be read, uncompressed_size() is the number of bytes a complete checked read delivers.", "quantifier": "all archives, all entries", "why_tests_cant": "All contents and all archives.", "anchors": ["src/entry/mod.rs", "src/base/read/io/entry.rs", "src/base/write/entry_whole.rs", "src/base/write/entry_stream.rs"]}
{"id": "C49", "title": "Entry builders keep what they were told", "statement": "After any chain of ZipEntryBuilder calls each component of the entry is what the last call naming it said, or what it was before if none did; unix_permissions changes the upper half of the external attributes only, and no call touches a component it does not name. A new entry has the name and the method given, the default level, an empty comment, no extra fields, Unix attributes, and 0 for everything else. A ZipFileBuilder begins with no entries, no ZIP64 mark and an empty comment, and its comment call replaces the comment only.", "quantifier": "all chains of calls, all arguments, all initial entries", "why_tests_cant": "Unbounded chains and the interaction of the two calls that share the external attributes.", "anchors": ["src/entry/builder.rs", "src/entry/mod.rs", "src/file/builder.rs"]}
{"id": "C50", "title": "Archives can be written behind existing content", "statement": "Writing to a sink that already holds bytes appends exactly the archive that an empty sink would hold, with the same results for every call, and the sink's whole content can be opened as an archive.", "quantifier": "all contents, all histories of writer calls, all sink behaviours", "why_tests_cant": "All histories and schedules.", "anchors": ["src/base/write/mod.rs", "src/base/write/io/offset.rs", "src/base/read/mod.rs"]}
{"id": "C51", "title": "Reading through a path is reading the file's bytes", "statement": "The tokio file reader opens and delivers exactly what the in-memory reader does with the file's bytes; an index out of range is reported as such whatever the file system does; a failure to open or read the file surfaces as an upstream error; any number of entry readers can be used at once; what this crate wrote is read back; and an entry is never read from another file than the one that was opened.", "quantifier": "all file systems, files, indices, source schedules", "why_tests_cant": "All file contents, poll schedules and interleavings.", "anchors": ["src/tokio/read/fs.rs"]}
{"id": "C52", "title": "Ordinary requests are carried out and read back", "statement": "On a sink without faults, if no ZIP64 restriction was set, no call asks for Deflate64 compression and every name, comment and list of extra fields leaves room for what the writer adds, then every call and the final close succeed; and if moreover there are fewer than 0x4b50 calls, strings are UTF-8 without alternatives, texts, extra fields and attributes avoid the bytes of the ZIP64 locator signature, the archive comment avoids byte 6, and the archive is shorter than 80 MiB, then opening it, seekably or from memory, gives one entry per entry-writing call, in order, with the name, comment, method, date and attributes given and with the data that was handed over. No condition on the archive's bytes other than its length is needed.", "quantifier": "all sequences of writer calls meeting the stated conditions, all fault-free sink schedules, all source schedules without faults, all codecs whose decoder inverts their encoder", "why_tests_cant": "The absence of false signatures in all archives of ordinary content, and the success of all calls, cannot be enumerated.", "anchors": ["src/base/write/mod.rs", "src/base/write/entry_whole.rs", "src/base/write/entry_stream.rs", "src/base/read/mod.rs", "src/base/read/io/locator.rs"]}
{"id": "C53", "title": "The length of an archive can be told from the calls", "statement": "On a sink without faults, for a session of at most 65535 calls that set no ZIP64 restriction, leave room in names, comments and extra fields, bring no Info-ZIP Unicode fields of their own, and hand over data that goes into the archive as it is (stored or precompressed, recorded sizes and total within 32 bits), the archive's length is the sum, over the calls, of 30+46 bytes of headers, twice the stored name, twice the extra fields (with 9 bytes plus the UTF-8 text for each Unicode field that bit 11 cannot spare), the stored comment and the data - for a closed stream additionally 20+28 bytes of ZIP64 fields and 16 of data descriptor, for a dropped stream only its local part - plus 22 bytes and the archive comment, plus 76 bytes of ZIP64 records exactly if some call forced ZIP64 or opened a stream. Data that is compressed counts with the length it has after compression, which is the same whatever else the session does (content of entries written whole within 32 bits, archive below 2^64 bytes). Together with C52 this promises the round trip from the calls alone.", "quantifier": "all sequences of writer calls meeting the stated conditions, all fault-free sink schedules", "why_tests_cant": "Exact lengths for all names, comments, extra fields and sequences of calls cannot be enumerated; progress bars, quotas and Content-Length headers rely on them.", "anchors": ["src/base/write/mod.rs", "src/base/write/entry_whole.rs", "src/base/write/entry_stream.rs", "src/spec/header.rs"]}
{"id": "C54", "title": "Stored streams do not depend on how their data was cut", "statement": "If two sessions differ only in how the data of streams that is not compressed by the writer (stored or precompressed) was divided into write_all and flush calls, and in the behaviour of sinks without faults, then every call has the same result and the archives are byte for byte the same.", "quantifier": "all pairs of sessions related in this way, all fault-free sink schedules", "why_tests_cant": "All ways of cutting all data, interleaved with flushes and pending or short writes, cannot be enumerated.", "anchors": ["src/base/write/entry_stream.rs", "src/base/write/compressed_writer.rs", "src/base/write/io/offset.rs"]}
{"id": "C55", "title": "Writing through inner_mut keeps the archive intact", "statement": "Bytes the caller writes to the sink obtained from ZipFileWriter::inner_mut between two calls change neither the results of the later calls nor the bytes written before and after; they come to lie in between, and the archive still opens.", "quantifier": "all sessions, all bytes, all places in the session, all sink schedules", "why_tests_cant": "The documentation only warns that state may be invalidated; what exactly happens in all cases is not a matter of examples.", "anchors": ["src/base/write/mod.rs", "src/base/write/io/offset.rs"]}
{"id": "C56", "title": "A stream polled in any way holds what it reported", "statement": "However the caller polls an open stream entry whose data is not compressed by the writer (stored or precompressed) through AsyncWrite - poll_write and poll_write_vectored with any buffers, poll_flush, poll_close, in any order, giving up pending polls and carrying on after errors - the entry holds exactly the bytes the polls reported as taken: the finished archive is byte for byte the one in which these bytes were handed over by a single write_all. Closing through the trait completes the entry.", "quantifier": "all sessions, all sequences of polls, all sink schedules with pending polls, short writes and transient faults, as long as no other call reports an error of the sink", "why_tests_cant": "Sequences of polls with arbitrary outcomes, cancelled and retried with other buffers, are unbounded and hardly ever occur with real sinks.", "anchors": ["src/base/write/entry_stream.rs", "src/base/write/compressed_writer.rs", "src/base/write/io/offset.rs"]}
{"id": "C57", "title": "Smaller builds agree with the full one", "statement": "A build of the crate with fewer compression features, or for a target whose usize is narrower than 64 bits, opens an archive exactly if the full 64-bit build does, the number of entries can be held by the target and the method of every entry is compiled in; it then reports exactly the same archive. An archive that only the full build opens is refused with an error that names the reason: TargetZip64NotSupported, or CompressionNotSupported with the number of the first method missing. The stream reader likewise delivers the same entries up to the first whose method is not compiled in.", "quantifier": "all subsets of compression features, all widths of usize up to 64 bits, all byte strings, all source schedules", "why_tests_cant": "Test suites run with one feature set on a 64-bit host; feature subsets times targets times malformed archives are not enumerable.", "anchors": ["src/spec/compression.rs", "src/base/read/mod.rs", "src/base/read/stream.rs", "Cargo.toml"]}
{"id": "C58", "title": "Reading takes work in proportion to the bytes", "statement": "However slowly a source delivers and whatever counts, sizes and offsets the bytes claim, opening an archive of n bytes makes the source answer at most n + 133215 times (polls that are put off not counted): one answer per byte of the directory, at most 33 windows of 2048 bytes for the search, and the records around it. Walking to the next local header takes at most one answer per byte moved over, and four more; reading a stored entry of c bytes takes at most c + 31. So no archive makes the readers loop or read the same directory over and over.", "quantifier": "all byte strings, all schedules of the source (any number of pending polls, chunks of any size, faults)", "why_tests_cant": "A bound on work for every input and every schedule cannot be sampled; adversarial archives that make a reader quadratic are exactly the ones tests lack.", "anchors": ["src/base/read/mod.rs", "src/base/read/io/locator.rs", "src/base/read/io/mod.rs", "src/base/read/io/entry.rs", "src/base/read/stream.rs"]}
{"id": "C59", "title": "Entry readers can be polled, given up, failed and taken up again in any way", "statement": "However the caller polls the reader of an entry - poll_read and poll_read_vectored with buffers of any sizes, giving up pending polls, carrying on after errors - the bytes handed over are a beginning of the entry's content, and all of it once a poll with room says that there is no more; the running hash is the CRC of exactly these bytes and a checked read afterwards succeeds exactly if these bytes and the rest have the recorded CRC. After any history of such readers (and failed opens) on one seekable source every entry still reads from its beginning as from a fresh source, unless the source fails again.", "quantifier": "all archives, all histories of opens and polls, all schedules of the source with pending polls, short reads and faults, all codecs", "why_tests_cant": "Polls with arbitrary outcomes, abandoned and resumed with other buffers, on readers sharing a source, are unbounded in number and hardly occur with real sources.", "anchors": ["src/base/read/io/entry.rs", "src/base/read/io/hashed.rs", "src/base/read/io/compressed.rs", "src/base/read/io/owned.rs", "src/base/read/seek.rs"]}
{"id": "C60", "title": "The extraction example never leaves the output directory", "statement": "Whatever names an archive holds (absolute, with backslashes, with '.' and '..', with empty parts), however its bytes are delivered and whatever the operating system answers, every directory and file that examples/file_extraction.rs makes lies below the output directory, provided sanitize_filename gives plain names; no path is created or filled twice, provided create_new refuses existing files; and if the extraction finishes, the files made are those of the archive, in order, each holding what the bytes of its entry decode to.", "quantifier": "all archives, all output directories, all sanitizers that give plain names, all answers of the operating system, all schedules of the source, all codecs", "why_tests_cant": "Directory traversal depends on the interplay of arbitrary names, separators, path joining and an existing directory; tests try a few known attacks.", "anchors": ["examples/file_extraction.rs", "src/base/read/seek.rs", "src/entry/mod.rs"]}
{"id": "C61", "title": "What is written under plain names is extracted as it was", "statement": "If files and folders are written under plain names (UTF-8 parts separated by '/', each part non-empty, without '/', '\\' or byte 7, and left alone by sanitize_filename), no file lying on the way to another file or to a folder, by fewer than 0x4b50 calls of any kind for entries that an ordinary request can hold, on a sink without faults, and the archive (below 0x5000000 bytes) is then extracted by examples/file_extraction.rs into an empty directory on a disk without faults, then extraction finishes, the files made are exactly those written, in order, each below the output directory under its name and with its content, and every folder has been made or was there. The same holds for any session of calls whatever came of them, the files being those whose calls succeeded, if the archive can be told for what it is (C01), names and comments need no caller's Unicode field, and no compressed stream was written while ZIP64 was forbidden.", "quantifier": "all trees of files, all ways of writing them (whole or streamed, stored or compressed by any codec whose decoder inverts its encoder), all schedules of sink and source, all output directories, all disks that refuse only what stands in the way", "why_tests_cant": "The round trip goes through the builder, both writers, the directory, the seek reader, path handling and the file system; tests compress and extract a handful of fixed files.", "anchors": ["examples/file_extraction.rs", "src/base/write/mod.rs", "src/base/write/entry_whole.rs", "src/base/write/entry_stream.rs", "src/base/read/seek.rs", "src/base/read/mod.rs"]}
{"id": "C62", "title": "Archives pass a strict check", "statement": "A checker written from APPNOTE alone (the entries stand one after the other without a gap from the first byte to the directory; local and central header agree on version, flags, method, date, time and name, and on CRC and sizes where the local header gives them; the version needed covers ZIP64, directories and the method; all extra fields are well formed; the data unpacks to the stated size and CRC; a data descriptor is right and of the width its local header calls for; the directory is exactly where and as long as the end records say; nothing is left over) accepts every archive all of whose calls, including close, succeeded.", "quantifier": "all sequences of calls of the writer, all entries, all codecs whose decoder inverts their encoder, all schedules of the sink", "why_tests_cant": "The tests of the crate read back with the crate's own reader, which ignores the version needed, the local copies of the fields and the descriptors; other readers are stricter, and no test can run them all over all archives.", "anchors": ["src/base/write/mod.rs", "src/base/write/entry_whole.rs", "src/base/write/entry_stream.rs", "src/spec/version.rs"]}
{"id": "C63", "title": "Whatever passes the strict check is opened and read", "statement": "If the strict checker of C62 accepts a file, of whatever origin, then opening it succeeds, the entries reported are those of its directory in order (names and comments byte for byte, methods, CRCs, sizes and offsets with ZIP64 fields resolved, dates, attributes, descriptor flag), and reading each entry with its CRC checked yields the content that the checker unpacked.", "quantifier": "all byte sequences that the checker accepts, all codecs, all schedules of the source", "why_tests_cant": "The fixtures of the crate are a handful of archives; other programs write other flags, extra fields, descriptors and ZIP64 records, and a reader that rejects or misreads one of the accepted files would go unnoticed.", "anchors": ["src/base/read/mod.rs", "src/base/read/io/locator.rs", "src/base/read/io/entry.rs", "src/base/read/seek.rs", "src/base/read/mem.rs", "src/spec/parse.rs"]}
{"id": "C64", "title": "Whatever passes the strict check can be read front to back", "statement": "If the strict checker of C62 accepts a file, of whatever origin, then the stream reader, which never looks at the directory, finds the same entries in the same order (names byte for byte, methods, dates, descriptor flag, and CRC and sizes where the local header has them), delivers for each the content that the checker unpacked, and then reports the end.", "quantifier": "all byte sequences that the checker accepts, all decoders for which what follows the compressed data does not matter, all schedules of the source", "why_tests_cant": "The stream tests of the crate read a few archives of its own making; whether descriptors, local ZIP64 fields and odd extra fields of other writers are stepped over correctly shows only on archives nobody has tried yet.", "anchors": ["src/base/read/stream.rs", "src/base/read/mod.rs", "src/base/read/io/entry.rs"]}
{"id": "C65", "title": "Opening reports exactly what stands in the bytes", "statement": "For every byte sequence there is at most one way to take it as an archive: the end record at the last signature, the ZIP64 end record if a locator stands 20 bytes before it, and as many directory records in a row as are claimed, each with name, fields and comment as far as the data goes. If opening succeeds, the entries, the ZIP64 flag and the comment reported are those of this reading, field by field; and if there is such a reading with supported methods and well-formed Unicode fields, its end record within the last 65557 bytes, a number of entries that can be held and a locator whose offset plus 4 fits 64 bits, opening succeeds. Nothing is made up, dropped or reordered.", "quantifier": "all byte sequences, conforming or not, all schedules of the source", "why_tests_cant": "Tests compare a few archives with expected listings; that nothing else is ever reported, for malformed input too, is a statement about all inputs.", "anchors": ["src/base/read/mod.rs", "src/base/read/io/combined_record.rs", "src/base/read/io/locator.rs", "src/spec/parse.rs"]}
{"id": "C66", "title": "What is reported is no larger than the bytes", "statement": "Opening an archive of n bytes reports at most n/46 entries, whose names, comments (in both encodings, where there are two) and extra fields together have at most 2n bytes, and a comment of at most n - 22 bytes. The entry that the stream reader reports is likewise at most twice as large as the header it moved over. No archive makes the listing large without being large itself.", "quantifier": "all byte sequences, all schedules of the source", "why_tests_cant": "A bound over all inputs; hostile archives with overlapping or oversized claims cannot be enumerated.", "anchors": ["src/base/read/mod.rs", "src/spec/extra_field.rs"]}
{"id": "C67", "title": "The stream reader reports exactly the local header", "statement": "At any place in the data the stream reader reports the end exactly if the signature of a directory record stands there, and an entry exactly if a local header stands there that is not encrypted, does not announce a descriptor behind stored data, and has a supported method and well-formed Unicode fields; all attributes reported are those of this header, the data begins right behind it, and the reader handed out is limited to the compressed size told, or not at all if a descriptor follows.", "quantifier": "all byte sequences, all places, all schedules of the source", "why_tests_cant": "The stream tests read intact archives of the crate's own making.", "anchors": ["src/base/read/mod.rs", "src/base/read/stream.rs"]}
{"id": "C68", "title": "A walk through the stream gives exactly what stands in the bytes", "statement": "Whatever a caller of the stream reader reads of each entry before calling skip, or reads to the end before calling done: the walk succeeds exactly if the bytes from where it starts are a sequence of local headers, each followed by data that decodes completely (of the size told, or of its own extent where a descriptor is announced) and, where announced, by a descriptor of 12 bytes or of 16 with its signature, up to the signature of a directory record. The entries are then those of the headers, the contents read are the decoded data, partial reads are beginnings of it, and there is one such reading of the bytes only. A walk over n bytes visits at most n/30 entries and always ends, and it panics only by an overflow in a build with overflow checks. A source that fails adds its own error and nothing else: what is got from it in spite of failures stands in the bytes all the same.", "quantifier": "all byte sequences below 2^64 bytes, all starting places, all plans of reading and skipping, all schedules of the source, with failures, all codecs", "why_tests_cant": "The stream tests read intact archives of the crate's own making from start to end.", "anchors": ["src/base/read/stream.rs", "src/base/read/io/entry.rs"]}
{"id": "C69", "title": "Reading by the directory: the outcome in every case", "statement": "Reading an entry to its end with the check gives: out of bounds for an index beyond the directory; unexpected end if fewer than four bytes, or with the right signature fewer than thirty, stand at the entry's offset; unexpected header with the number found, if that is not the signature of a local header; a decoding error if the data behind the header, of the compressed size in the directory, is not complete; a CRC error if the CRC of what it decodes to is not that of the directory; and that content otherwise. A caller that opens an archive and reads every entry succeeds exactly if the bytes have a directory as in C65 (with its end record within the last 65557 bytes, a number of entries that can be held and a locator that fits) and such data, and has the entries and contents that stand there.", "quantifier": "all byte sequences (for reading every entry: below 2^64 - 2^17 bytes), all entries, all schedules of the source without errors, all codecs", "why_tests_cant": "All combinations of damaged and foreign archives; tests sample a few.", "anchors": ["src/entry/mod.rs:seek_to_data_offset", "src/base/read/io/entry.rs:read_to_end_checked", "src/base/read/mem.rs", "src/base/read/seek.rs"]}
{"id": "C70", "title": "The compression example keeps every file, and extraction brings it back", "statement": "If the compression example ends well for a directory, the archive is the one made of the files below the directory, each exactly once, under its path from the directory with slashes, compressed with DEFLATE; for a single file, of that file under the last part of its path. It ends well for any directory whose directories can be listed, whose files can be read and have UTF-8 paths that fit, on a sink without faults; it stops after looking into each directory once. Extracted into an empty directory by the extraction example, the archive gives the same files with the same contents, and no others.", "quantifier": "all directory trees, all codecs, all schedules of source and sink without errors", "why_tests_cant": "Trees of any shape and names; no test runs the examples, which are not even compiled.", "anchors": ["examples/cli_compress.rs:run", "examples/cli_compress.rs:walk_dir", "examples/cli_compress.rs:handle_directory", "examples/file_extraction.rs:unzip_file"]}
{"id": "C71", "title": "The upload example stores the parts of a form", "statement": "If the upload example ends well, every part of the form arrived whole, and the archive is made of the parts in order, each streamed under its sanitized file name or a made-up one. On a sink without faults it ends well if all parts arrive whole and with an error if the connection breaks anywhere, and panics only if the file cannot be shut. The archive opens, and reading entry by entry gives each part's name and the bytes of its chunks in order.", "quantifier": "all forms, all places where the connection may break, all codecs, all schedules without errors", "why_tests_cant": "All ways of cutting the data into chunks and all places of errors; no test runs the example.", "anchors": ["examples/actix_multipart.rs:create_archive"]}
{"id": "C72", "title": "Copying settles", "statement": "When all entries of an archive are read and written to a new one, and so on, from the third archive on nothing changes any more: the entries read are the same in every field, and the archives are the same byte for byte - provided no entry began with more extra fields without payload at the end of its list than copies were made (each copy loses one), and the archives are copyable as in C40.", "quantifier": "all entries that can be copied, all codecs, all numbers of copies, all schedules without errors", "why_tests_cant": "Any number of generations of any entries; tests write and read once.", "anchors": ["src/base/write/entry_whole.rs:write", "src/base/read/mod.rs:detect_filename", "src/base/write/mod.rs:get_or_put_info_zip_unicode_path_extra_field_mut", "src/spec/parse.rs:parse_extra_fields"]}
{"id": "C73", "title": "The archive is known to the last byte", "statement": "When every call of a session worked, no entry stream was dropped and close succeeded, the sink holds exactly: the entries in order from offset 0, each a local header, its data and for streams a data descriptor; one central record for each, in the same order; and the end records, with the ZIP64 ones if and only if ZIP64 was forced, an entry has a ZIP64 field, there are more than 65535 entries, or the directory begins beyond 4 GiB - every field of every record being the one worked out from the entry and its offset alone. For data that goes in as it is the calls tell every byte, whatever the codec and however the sink takes its bytes.", "quantifier": "all sessions whose calls worked and whose archives are shorter than 2^64 bytes, entries without ZIP64 fields of their own, all codecs, all write schedules", "why_tests_cant": "All combinations of calls, options, fields and sizes; tests only read archives back with the same crate.", "anchors": ["src/base/write/entry_whole.rs:write", "src/base/write/entry_stream.rs:close", "src/base/write/mod.rs:close", "src/base/write/mod.rs:get_or_put_info_zip_unicode_path_extra_field_mut"]}
{"id": "C74", "title": "Writer calls can be given up at any await", "statement": "If the future of a writer call (write_entry_whole, opening, feeding, flushing or closing an entry stream, close) is dropped while it is pending, everything is left as if the sink had failed at that moment. So the caller may go on: after a successful close the archive, if it can be told for what it is as in C01, lists and gives back exactly the entries of the calls that ended well, whichever calls were given up and at whichever await. If the caller stops instead, the sink holds a beginning of what an undisturbed session would have put there.", "quantifier": "all sessions, all sinks, all choices of calls to give up and of the pending poll at which", "why_tests_cant": "Every await of every call is a place to be dropped; no test drops a future.", "anchors": ["src/base/write/mod.rs:write_entry_whole", "src/base/write/entry_whole.rs:write", "src/base/write/entry_stream.rs:close", "src/base/write/mod.rs:close"]}
{"id": "C75", "title": "Opening fails for stated causes only", "statement": "Opening an archive ends in an error or panic exactly when the bytes give one of these causes, tried in this order, and then in the one stated: no end signature within the last 67456 bytes (UnableToLocateEOCDR); the last end record is cut off (unexpected end of file); a ZIP64 locator whose offset overflows (panic, with overflow checks) or whose record is cut off (unexpected end of file); disk numbers or counts that differ (FeatureNotSupported); a count too large for memory (panic); and for the first record of the directory that fails: fewer than 46 bytes left, another signature, an unknown method, an extra field that claims more than there is (panic with overflow checks, else InvalidExtraFieldHeader with a wrapped-around remainder), an incomplete Unicode field. In every other case it opens. A source that fails adds its own error and nothing else.", "quantifier": "all byte sequences, both build modes, all sources", "why_tests_cant": "Tests check a handful of broken files; the order of the checks and the reach of the search are visible only over all inputs.", "anchors": ["src/base/read/mod.rs:file", "src/base/read/mod.rs:cd_record", "src/base/read/io/locator.rs:eocdr", "src/spec/parse.rs:parse_extra_fields", "src/spec/extra_field.rs:extra_field_from_bytes"]}
{"id": "C76", "title": "The next header of a stream fails for stated causes only", "statement": "Asking the stream reader for the next entry ends in an error or panic exactly when the bytes there give one of these causes, tried in this order, and then in the one stated: fewer than 4 bytes or a header cut off (unexpected end of file); a signature that is neither a local header's nor the directory's (UnexpectedHeaderError); an unknown method (CompressionNotSupported); the first extra field that claims too much or is incomplete, as when opening; a stored entry with a data descriptor; an encrypted entry (both FeatureNotSupported). A source that fails adds its own error and nothing else.", "quantifier": "all byte sequences and positions, both build modes, all sources", "why_tests_cant": "The precedence of the checks over one another is a matter of all combinations.", "anchors": ["src/base/read/mod.rs:lfh", "src/base/read/stream.rs:next_with_entry", "src/spec/parse.rs:parse_extra_fields"]}
{"id": "C77", "title": "A writer session can be worked out beforehand, failures included", "statement": "On a sink without faults, the outcome of every call of a session (also of those that are refused, panic, or whose stream is dropped unclosed), the bytes each leaves, the outcome of close and the finished archive are a function of the calls and of each call's compressed data, which does not depend on the session. In that function a refused call leaves nothing on the sink except where it says so (an entry whose directory record alone is too long leaves its local part; a stream leaves what was written of it), a call that fails or is dropped leaves no directory record except the 65536th entry under a forbidden ZIP64, and the archive is a ZIP64 one as soon as one call asked for it, even if that call was then refused or dropped. On a sink with faults this holds up to the first call that reports an error of the sink, and that call leaves a part of what it should have left.", "quantifier": "all sequences of writer calls, all codecs that take their input, all sinks, archives shorter than 2^64 bytes", "why_tests_cant": "Tests write archives whose calls all work; what refused and abandoned calls leave behind for later ones depends on every mixture of them.", "anchors": ["src/base/write/mod.rs:write_entry_whole", "src/base/write/mod.rs:close", "src/base/write/entry_whole.rs:write", "src/base/write/entry_stream.rs:from_raw", "src/base/write/entry_stream.rs:close"]}
{"id": "C78", "title": "Seeks that are pending, fail or are refused, and calls that are given up, change no result", "statement": "Over a source whose seeks may be pending (leaving the source anywhere), fail with any error or be refused past a limit such as a file's 2^63 - 1, and with callers that drop a call while it is pending: opening an archive and opening or reading an entry end as they do on the plain bytes, or with an error the source itself reports, or with the refusal. A refusal hits only archives and entries that do not open or read on the plain bytes either, but for archives without entries whose directory is said to start beyond the limit. After any history of calls that failed or were given up, whose entry readers were polled in any way, every entry reads as from a fresh source. A call is given up only if the source is pending more often than its caller puts up with.", "quantifier": "all bytes, all schedules of reads and seeks, all limits with room behind the data, all histories of calls and patience", "why_tests_cant": "Tests seek in memory, where a seek never waits and never fails, and never drop a pending call.", "anchors": ["src/base/read/mod.rs:file", "src/base/read/io/locator.rs:eocdr", "src/base/read/seek.rs:reader_with_entry", "src/entry/mod.rs:seek_to_data_offset"]}
{"id": "C79", "title": "Opening a written archive tells whether it is taken for what it is", "statement": "For a session that ended with a successful close: the archive opens with the comment and the kind of end (ZIP64 or not) it was written with exactly if the comment fits its length field, no end signature stands behind the start of the end record, and - without ZIP64 - no locator signature stands twenty bytes before it. So a caller can check an archive by opening it and comparing these two: if they are right, the entries and their contents come back as in C01.", "quantifier": "all sessions of calls with a successful close, all schedules, all ways the source chunks its data; sizes and counts that can be told as in C01", "why_tests_cant": "That no other archive passes the comparison is a statement about all archives; tests look at those that are opened correctly.", "anchors": ["src/base/write/mod.rs:close", "src/base/read/mod.rs:file", "src/base/read/io/locator.rs:eocdr"]}
{"id": "C80", "title": "What an archive that was cut short still gives, read front to back", "statement": "Cut an archive that can be read front to back at any place, and walk through what is left with the stream reader, reading or skipping entries as one likes. Every entry that lies before the cut is told and delivered as before. Then a call fails: the walk never takes the cut for the end of the archive, unless the cut lies behind the signature of the directory. At most one more entry is told before that, the one through which the cut went, and what is delivered of it is a beginning of its content; if its header is whole it is told as it is, and it is a stored one. Every archive the writer makes that can be told apart front to back is such an archive.", "quantifier": "all archives below 2^64 bytes, all cuts, all plans of reading and skipping, all ways the source chunks its data, all decoders whose result depends on the data they use only (DEFLATE is one)", "why_tests_cant": "There is one cut per byte of every archive; the tests hold no archive that was cut.", "anchors": ["src/base/read/stream.rs:next_with_entry", "src/base/read/stream.rs:done", "src/base/read/stream.rs:skip", "src/base/read/mod.rs:lfh"]}
{"id": "C81", "title": "Errors tell themselves apart, and truly", "statement": "Two errors with the same message are the same error with the same numbers in it: sizes and counts are told in decimal, signatures in hexadecimal, unsupported features by name, and nothing runs together (given that the messages of I/O errors tell those apart). What the message says is so: `More than 65536 files in archive` is said only if there are more, `File is larger than 4 GiB` only of such a file.", "quantifier": "all errors, all numbers in them, all texts of I/O errors that differ", "why_tests_cant": "There are more errors than can be printed, and no test of the crate looks at a message.", "anchors": ["src/error.rs:ZipError", "src/error.rs:Zip64ErrorCase"]}
{"id": "C82", "title": "Bytes behind an archive", "statement": "Whatever follows an archive does not matter, as long as the place of its end record is among the last 67456 bytes: it opens with the same entries, comment and kind of end, and entries read the same. Beyond that it is refused as having no end. The bytes that follow must not hold an end signature nor complete one that the archive ends with (zeros never do), the comment must be there in full, and no record of the directory may run into the end of the data. Archives this crate wrote and that can be told apart (C01) are of this kind.", "quantifier": "all archives that open, all bytes behind them, all ways the source chunks its data; for written ones all sessions and schedules as in C01", "why_tests_cant": "The bytes that may follow are unbounded in kind, and the limit lies beyond the archives of the tests.", "anchors": ["src/base/read/io/locator.rs:eocdr", "src/base/read/mod.rs:file", "src/base/read/mod.rs:cd"]}
{"id": "C83", "title": "Opening looks at the directory and the end only", "statement": "Opening an archive depends on its directory, its end records and the 20 bytes before the end record, and on nothing that stands before them: whatever replaces those bytes, as many for as many, the same entries, comment and kind of end are reported. So bytes replaced in place leave the listing as it is, and every entry whose local header and data they are not part of reads as before. For an archive this crate wrote (that can be told apart, C01, and that has an entry or a 64 bit end) this holds of everything written before the directory.", "quantifier": "all archives that open, all bytes replaced by as many others before what is looked at, all ways the source chunks its data; for written ones all sessions and schedules as in C01", "why_tests_cant": "It relates pairs of archives over all contents of the part that is not looked at.", "anchors": ["src/base/read/mod.rs:file", "src/base/read/mod.rs:cd", "src/base/read/io/locator.rs:eocdr", "src/base/read/seek.rs:reader_without_entry"]}
{"id": "C84", "title": "What the check value tells", "statement": "Two contents of the same length have the same check value exactly if their difference, as a polynomial over GF(2), is a multiple of the CRC-32 generator. So the check value tells any difference confined to 32 adjacent bits (not only to four whole bytes), and any two flipped bits less than 2^32 - 1 places apart; both bounds are sharp. For a stored entry whose data was replaced by as many other bytes, the checked read delivers the new bytes if the check values agree and reports CRC32CheckError otherwise.", "quantifier": "all pairs of contents of equal length; all archives, entries and replaced data, all ways the source chunks its data", "why_tests_cant": "Pairs of bits up to 2^32 places apart in contents of any length cannot be tried one by one; the bound is the order of x modulo the generator.", "anchors": ["src/base/read/io/hashed.rs", "src/base/read/io/entry.rs:read_to_end_checked", "src/base/write/entry_whole.rs:crc32"]}
{"id": "C85", "title": "Refused calls leave no trace", "statement": "A call of the writer that ends in an error other than the sink's, or panics, without having put a byte on the sink leaves no trace: with the call taken out of the session every other call ends the same, and the archive is the same byte for byte.", "quantifier": "all sessions, all codecs, all schedules of the sink including its faults, any number of refused calls at any place", "why_tests_cant": "It compares pairs of sessions of any length with calls taken out at any place.", "anchors": ["src/base/write/entry_whole.rs:write", "src/base/write/entry_whole.rs:enforce_zip64", "src/base/write/entry_stream.rs:write_lfh", "src/base/write/mod.rs:close"]}
{"id": "C86", "title": "Writing takes work in proportion to the bytes", "statement": "Whatever the sink does, each of its answers that is not Pending has taken at least one byte of the archive, completed a flush the caller asked for, or made the call in hand return an error of the sink. So a session polls the sink at most once per byte written, per flush asked for and per call that failed on the sink, besides the polls it put off; and there are no more flushes than were asked for.", "quantifier": "all sessions, all codecs, all behaviours of the sink; each call from every state of the writer", "why_tests_cant": "It bounds the number of polls over every behaviour of the sink and every session; a busy loop only shows under sinks no test uses.", "anchors": ["src/base/write/io/offset.rs:poll_write", "src/base/write/entry_whole.rs:write", "src/base/write/entry_stream.rs:close", "src/base/write/mod.rs:close"]}
{"id": "C87", "title": "The archive tells what was written", "statement": "Two sessions of the writer that were closed successfully and left the same bytes wrote the same archive comment and the same number of entries, and the i-th of each agree in name, comment, method, date, attributes, check value, and data.", "quantifier": "all pairs of sessions, including whole, streamed and precompressed entries, calls that failed, and all behaviours of the two sinks", "why_tests_cant": "It ranges over pairs of arbitrary sessions; a collision cannot be searched for.", "anchors": ["src/base/write/mod.rs:close", "src/base/write/entry_whole.rs:write", "src/base/write/entry_stream.rs:close"]}
{"id": "C88", "title": "The offset writer counts what its sink takes", "statement": "After any sequence of polls of the offset writer's AsyncWrite methods, in any order and under every behaviour of the sink, its offset is the number of bytes the sink has taken.", "quantifier": "all sequences of poll_write, poll_flush, poll_close and poll_write_vectored, all behaviours of the sink", "why_tests_cant": "It ranges over all interleavings of four methods with all answers of the sink; the one method that breaks it is not called by the crate, so no test of the crate runs it.", "anchors": ["src/base/write/io/offset.rs:poll_write", "src/base/write/io/offset.rs:poll_write_vectored"]}
{"id": "C89", "title": "Entries share no bytes", "statement": "In an archive that opens, the entries lie one behind the other in front of the directory: from header to end of data no two share a byte. So the entries' data together is no longer than the archive.", "quantifier": "all archives, and in particular those of all sessions of the writer", "why_tests_cant": "It ranges over all archives and sessions; whether overlapping entries are accepted only shows on archives that no writer makes.", "anchors": ["src/base/read/mod.rs:cd_record", "src/base/write/entry_stream.rs:close", "src/entry/mod.rs:seek_to_data_offset"]}
{"id": "C90", "title": "Compressing beforehand makes no difference", "statement": "Writing an entry whole is the same, call for call and byte for byte, as handing over its compressed data with length and check value put into the entry, in every state of the writer and whatever the sink does. Streaming an entry that has its length and check value in it already leaves the same archive, on sinks without faults, as streaming its compressed data, however that is cut and flushed.", "quantifier": "all entries with an encoder, all contents, all states of the writer and all sinks (whole); all sessions around the stream and all sinks without faults, archives below 2^64 bytes (stream); all codecs that take their input", "why_tests_cant": "It compares two ways of writing in all states; the tests have no precompressed entries at all.", "anchors": ["src/base/write/mod.rs:write_entry_whole_precompressed", "src/base/write/entry_whole.rs:write", "src/base/write/entry_stream.rs:from_raw_precompressed"]}
{"id": "C91", "title": "An archive without a comment opens", "statement": "An archive that was completed without setting a comment, all calls having worked, opens, lists exactly the entries written and gives back their contents.", "quantifier": "all sessions without a comment, all sinks, all lawful codecs, all sources without faults; archives below 2^64 bytes", "why_tests_cant": "Whether the end record contains its own signature depends on numbers no test gets near: 19280 entries with a directory of a certain length, or a directory of 100 MB.", "anchors": ["src/base/write/mod.rs:close", "src/base/read/io/locator.rs:eocdr", "src/base/read/mod.rs:file"]}
{"id": "C92", "title": "Repacking keeps what a strict check sees", "statement": "When all entries of an archive that passes the strict check (C62) are read and written, with their contents, to a new archive, then the new archive passes the strict check, and the check sees the same entries in it: the same names, comments, methods, dates, attributes, check values, sizes and contents, in the same order.", "quantifier": "all byte strings that pass the strict check, whoever wrote them, all lawful codecs, all schedules of the sink", "why_tests_cant": "The archives come from other programs, with descriptors, Unicode fields and names in other encodings in every combination; what is seen on both sides is told by a checker that shares nothing with the crate.", "anchors": ["src/base/read/mod.rs:file", "src/base/read/mem.rs", "src/base/write/mod.rs:write_entry_whole", "src/base/write/entry_whole.rs"]}
{"id": "C93", "title": "What exactly a strict check finds wrong with archives", "statement": "For a session all of whose calls succeeded, with no stream left unclosed, no sizes exchanged (C21) and an end that can be told, a check that follows APPNOTE but overlooks (a) that an entry with a ZIP64 field should need version 4.5 and (b) that its data descriptor should have 64-bit sizes finds nothing wrong, provided that directories are named in UTF-8 or their method needs version 2.0, and that sizes and check values told of precompressed data are right. In archives of at most 4 GiB, if (a) is looked at, exactly the entries with a ZIP64 field and a method that needs less than 4.5 are found wrong in addition: streams while ZIP64 is allowed, and whole entries with more than 4 GiB of content. If (b) is looked at, exactly the streams written while ZIP64 is allowed are. So the strict check passes exactly the archives without any of these. In larger archives the same holds while (a) is overlooked, if no size of a whole entry and no entry's offset is 0xFFFFFFFF itself.", "quantifier": "all sequences of writer calls meeting the stated conditions, all lawful codecs, all schedules of the sink, all four ways of overlooking", "why_tests_cant": "It is a statement of what is right about archives in general, not of what is wrong with one: every size, name, method, offset and mixture of calls on both sides of the limits, seen by a checker that shares nothing with the crate.", "anchors": ["src/base/write/entry_stream.rs:close", "src/base/write/entry_whole.rs:write", "src/base/write/mod.rs:close", "src/spec/version.rs:as_needed_to_extract"]}
{"id": "C94", "title": "Other readers see what was written", "statement": "A reader that follows APPNOTE and shares nothing with this crate (it looks for the last complete end record, follows it or the ZIP64 one to the directory, reads every listed entry's local header and decompresses what lies behind it) sees in a closed archive exactly the entries whose calls succeeded, in order, with their names, comments, methods, dates, attributes, sizes, check values and contents. This holds after any calls that failed or were dropped in between. The conditions: no sizes exchanged (C21), sizes and check values told of precompressed data are right, no 64-bit number equal to a placeholder, the archive shorter than 4 GiB if it was written without ZIP64, no call refused because there were too many entries, no second complete end record inside the comment, and, in an archive written without ZIP64, nothing right before the end that is a complete ZIP64 end. What is asked of the comment is less than what this crate's own reader needs: without a comment it always holds.", "quantifier": "all sequences of writer calls meeting the stated conditions, all lawful codecs, all schedules of the sink, archives of any size", "why_tests_cant": "Round trips through the crate's own reader cannot find an error that reader and writer share, and trials with other programs cover a few archives on one machine. This covers every archive, including those of more than 4 GiB and those left by failed calls.", "anchors": ["src/base/write/mod.rs:close", "src/base/write/entry_whole.rs:write", "src/base/write/entry_stream.rs:close"]}
{"id": "C95", "title": "Readers agree on what is in a file", "statement": "If this crate opens a file, of whatever origin, and a reader that follows APPNOTE and shares nothing with this crate opens it too, then both see the same entries in the same order: the same names and comments byte for byte, methods, check values, sizes with ZIP64 fields resolved, dates, attributes and offsets. Where this crate delivers an entry's content with its CRC checked, it is the content the other reader sees.", "quantifier": "all byte sequences that both readers open, all codecs, all schedules of the source", "why_tests_cant": "Files on which two readers differ are made on purpose, to show one content to a scanner and another to the program behind it; trials with archives of ordinary tools never meet one. The claim is about every sequence of bytes.", "anchors": ["src/base/read/mod.rs:file", "src/base/read/mod.rs:cd", "src/base/read/io/locator.rs:eocdr", "src/base/read/seek.rs:reader_with_entry"]}
{"id": "C96", "title": "Polls keep the contract of AsyncRead and AsyncWrite", "statement": "A poll of an entry reader is pending only if the source was pending in this very poll, and fails only with the source's error or because the data cannot be decoded; in both cases nothing has changed and the poll can be repeated. It hands over no more bytes than the caller's buffers hold, nothing more once it has told the end to a caller that offered room, and asks the source at most once. A poll of a stream writer that does not compress is pending or fails only if the sink was or did, without any change; otherwise it says how many bytes it took, which is no more than was offered, and exactly these, from the beginning of what was offered, are in the sink and counted. Closing by poll changes nothing.", "quantifier": "all entry readers and raw stream writers in any state, all polls with any buffers, vectored ones included, all answers of source and sink", "why_tests_cant": "A reader that is pending without its source being so hangs for ever, one that does something before it says pending does it twice; both depend on which poll of how many meets which answer. Executors in tests hardly ever see a pending source.", "anchors": ["src/base/read/io/entry.rs:poll_read", "src/base/read/io/hashed.rs:poll_read", "src/base/read/io/compressed.rs:poll_read", "src/base/write/entry_stream.rs:poll_write", "src/base/write/io/offset.rs:poll_write", "src/base/write/compressed_writer.rs"]}
{"id": "C97", "title": "A stream of any method, polled in any way, reads back as what its polls reported", "statement": "A caller writes entries by polling stream writers of any compression method: writes of any length, vectored writes, flushes and closes in any order, polls that are pending being repeated, replaced or given up, the sink taking as little at a time as it likes. Streams are then closed or dropped, closing being polled until it is done or given up; other calls come in between. If the encoder takes in exactly what it reports, hands on its output in order and reports to be closed only once all of it is handed on, no poll of a compressed stream that is then closed failed, and the writer's close works, the archive reads back as if each stream that was closed had been written in one piece with exactly the bytes its polls reported as taken: by this crate's seek and memory readers under the conditions of C01, and by a reader that follows the specification under those of C94.", "quantifier": "all sessions with polls in any order, all encoders that meet the contract, all sinks", "why_tests_cant": "What a poll takes in depends on how much output the encoder still holds and what the sink takes just then; tests await each write, on sinks that are always ready. Checksum and sizes come from the reports, the data from the encoder, and the two must agree for every mixture.", "anchors": ["src/base/write/entry_stream.rs:poll_write", "src/base/write/entry_stream.rs:close", "src/base/write/compressed_writer.rs", "src/base/write/io/offset.rs:poll_write"]}
{"id": "C98", "title": "However the decoder goes about it, polling a reader hands over the entry", "statement": "A caller polls the reader of an entry in any way, with buffers of any sizes and vectored ones, over a source that may wait, deliver as little as it likes, or fail in between. If the decoder hands over a beginning of what its input decodes to, says that there is no more only once all of it is handed over, and fails only because the source did or its input does not come to an end, then: what the polls handed over is a beginning of the entry's content, all of it as soon as one poll with room says that there is no more; the checksum kept is that of what was handed over; and polls report malformed data only if the data does not decode. Reading to the end with the checksum check ends as it does on a fresh source, with the kind of error for malformed data apart, unless the source failed, whose error is then reported. In particular what was written through any encoder as in C97 is read back through any decoder.", "quantifier": "all archives, sources, poll orders and buffer sizes; all decoders that meet the contract", "why_tests_cant": "How often a decoder polls its source within one poll, what it keeps, and where it is interrupted is up to the decoder; tests see one decoder on files that are always ready.", "anchors": ["src/base/read/io/entry.rs:poll_read", "src/base/read/io/hashed.rs:poll_read", "src/base/read/io/compressed.rs:poll_read", "src/base/read/io/entry.rs:read_to_end_checked"]}
{"id": "C99", "title": "However the decoder goes about it, the stream can be walked through while polling as one likes", "statement": "A caller goes through an archive with the stream reader: it polls the reader of each entry as it likes, with any buffers, whatever the polls say, and leaves the entry with done or skip, giving up whenever it likes; the source waits, delivers little or fails. For every decoder that keeps the contract of C98: if the bytes stand in the order of C68 (headers, data that decodes, data descriptors, then the directory), the entries come in that order, the polls hand over beginnings of their contents and report nothing as malformed, all of the content was handed over where a poll says that there is no more and where done lets the caller go on; and the walk ends with exactly these entries, is given up, fails with an error of the source, or with EOFNotReached at an entry of which not all was handed over. Conversely a walk that comes to the directory without having been told of malformed data has gone through what stands in the bytes.", "quantifier": "all byte strings shorter than 2^64, sources, walks and decoders that meet the contract", "why_tests_cant": "Where one entry ends and the next begins depends on how much the decoder took from the source, in whatever polls; tests read whole entries from files that are always ready.", "anchors": ["src/base/read/stream.rs:next_with_entry", "src/base/read/stream.rs:done", "src/base/read/stream.rs:skip", "src/base/read/stream.rs:consume_data_descriptor", "src/base/read/io/compressed.rs:poll_read"]}
{"id": "C100", "title": "What polls have written through any encoder can be walked through by polls around any decoder", "statement": "A session polls the streams of its entries in any order, through any encoder that keeps the contract of C97, over a sink that waits or takes little; it is closed, all calls worked, no stream was dropped unclosed, no failed poll of a compressed stream was ignored, there is an entry, and entries are streamable (what is streamed is compressed, precompressed data is one compressed stream). Then a caller that goes through the archive from its first byte, polling the entries as it likes and leaving them with done or skip (as in C99), around any decoder that keeps the contract of C98, is shown the entries that were written, in order, with the contents that the polls of the session reported as taken: what it is handed of each is a beginning of that, and all of it where a poll says that there is no more or where done lets it go on; nothing is reported as malformed; and the walk ends with exactly the entries written, is given up, fails with an error of the source, or with EOFNotReached at an entry that was not read out.", "quantifier": "all sessions, sinks, encoders and decoders that meet the contracts, sources and walks; archives shorter than 2^64", "why_tests_cant": "Both sides may stop anywhere and neither knows how the other was cut up; tests write and read whole entries over memory that is always ready.", "anchors": ["src/base/write/entry_stream.rs:poll_write", "src/base/write/entry_stream.rs:close", "src/base/write/compressed_writer.rs:poll_write", "src/base/read/stream.rs:next_with_entry", "src/base/read/stream.rs:done", "src/base/read/stream.rs:skip", "src/base/read/io/compressed.rs:poll_read"]}
{"id": "C101", "title": "Streams that are awaited around any encoder get done, take everything, and read back", "statement": "Let the encoder keep the contract of C97 and not stop without reason: it waits only when the sink made it wait, fails only when the sink did or took nothing, or when it is asked to go on after its end, takes at least a byte of what it is offered, and ends only when it is told to close. A caller writes entries in the ordinary way of C52, at least one, awaiting write_all, flush and close of its streams over a sink that may wait and take little but does not fail. If each of them is polled as often as the sink can make it wait, and once for each byte, then all of them return Ok, and so does the close of the archive; and if the archive is shorter than 0x5000000 bytes it opens over any source that does not fail and in memory, with the comment and the entries that were asked for, and each entry reads as exactly the bytes handed to write_all.", "quantifier": "all codecs, encoders meeting both contracts, obliging sinks, histories in the ordinary way with at least one entry, sources that do not fail", "why_tests_cant": "Whether a stream ever gets done depends on how encoder and sink interleave waiting and taking; tests use one encoder per method over memory that takes everything at once.", "anchors": ["src/base/write/entry_stream.rs:poll_write", "src/base/write/entry_stream.rs:poll_flush", "src/base/write/entry_stream.rs:close", "src/base/write/compressed_writer.rs:poll_write", "src/base/write/compressed_writer.rs:poll_flush", "src/base/write/compressed_writer.rs:poll_close"]}
{"id": "C102", "title": "Readers that are awaited around any decoder get done; what was awaited when written is handed over when awaited", "statement": "Let the decoder keep the contract of C98 and wait only when the source made it wait, and let the source not fail. An entry that can be read at all (over a source that is always ready) is read to its end with checksum, with buffers of any sizes above zero, if its reader is polled more often than the source can make it wait plus once for each byte of the content. An archive that can be gone through at all from its first byte is gone through: a caller that reads entries out before done, or skips them, and polls that often, passes all entries with their contents and arrives at the directory. Hence both ways: what was written in the ordinary way of C101 around any such encoder, over any sink that does not fail, is read around any such decoder, over any source that does not fail: every call of the writer returns Ok, the archive opens, every entry is read by its index as exactly the bytes handed to the writer; and (if streams were closed and entries are streamable) a walk from the first byte passes exactly the entries written, in order, and ends without an error.", "quantifier": "all codecs, encoders and decoders meeting the contracts, sinks and sources that do not fail, histories in the ordinary way with at least one entry, buffer sizes and walks that poll often enough", "why_tests_cant": "That something always comes to an end cannot be seen from finitely many runs, and the tests neither let the source wait nor cut up what it gives.", "anchors": ["src/base/read/io/entry.rs:read_to_end_checked", "src/base/read/io/entry.rs:poll_read", "src/base/read/io/hashed.rs:poll_read", "src/base/read/io/compressed.rs:poll_read", "src/base/read/stream.rs:next_with_entry", "src/base/read/stream.rs:done", "src/base/read/stream.rs:skip", "src/base/write/entry_stream.rs:close"]}
{"id": "C103", "title": "What polled and awaited streams leave is known to the last byte, and others see it as written", "statement": "A session whose entry streams are polled in any order through any encoder that keeps the contract of C97, in which every call worked and none was dropped, leaves exactly the bytes that C73 works out from the entries; for data that goes in as it is the calls tell every byte, whatever the polls and the sink did. A check as in C93, overlooking either thing, both or none, passes the archive exactly if the calls the polls amount to are ones that pass. Awaited on a sink without faults around an encoder that does not stop without reason (C101), handy calls leave that archive without further condition; and in the ordinary way a reader that follows the specification sees every entry in it as written, streams having been dropped or not.", "quantifier": "all codecs and encoders meeting the contracts, all sequences of polls, all sinks (polled) or sinks without faults (awaited), archives of less than 2^64 bytes (bytes), at most 4 GiB (check, polled), less than 80 MiB (other readers, awaited)", "why_tests_cant": "Tests await each call on a sink that takes everything at once; orders of polls, ways of holding back output and sinks that wait are unbounded, and the bytes are compared with none other than the crate's own reader.", "anchors": ["src/base/write/entry_stream.rs:poll_write", "src/base/write/entry_stream.rs:poll_flush", "src/base/write/entry_stream.rs:poll_close", "src/base/write/entry_stream.rs:close", "src/base/write/compressed_writer.rs:poll_write", "src/base/write/mod.rs:close"]}
{"id": "C104", "title": "Only the sink fails an awaited call, and what failed does no harm to the rest", "statement": "Around any encoder that keeps its contract and does not stop without reason, an awaited call that is handy (C94) fails only with an I/O error, having met a fault among the very answers of the sink that it used up, and is given up only if the answers it used made it wait longer than its caller was willing to; it never panics. The same holds for every call of a session, and its close works or met a fault. Whatever went wrong in a session that was closed, the calls that succeeded read back as in C25: a call that failed leaves no entry, one given up is a stream that was dropped. And once poll_close of a compressed stream reports that it is done, the sink has all of the compressed data, which decompress to exactly what the polls took and end exactly there.", "quantifier": "all codecs and encoders meeting the contracts (the read-back and poll_close: lively or not), all sinks with any faults and waits, all sessions of handy (blame) or well-formed (read-back) calls, any patience, all sequences of polls without a failed one (poll_close)", "why_tests_cant": "Faults and waits can come at any byte of any call, in any combination with the amounts the encoder holds back; tests use a sink that always accepts.", "anchors": ["src/base/write/entry_stream.rs:poll_write", "src/base/write/entry_stream.rs:poll_flush", "src/base/write/entry_stream.rs:poll_close", "src/base/write/entry_stream.rs:close", "src/base/write/compressed_writer.rs:poll_close", "src/base/write/mod.rs:close"]}
{"id": "C105", "title": "What is known of archives written by calls holds however the session went", "statement": "Let a session be carried out by calls, by polls in any order around any encoder that keeps its contract (no failed poll ignored), or awaited around such an encoder with any patience, with whatever faults, waits, failed calls and dropped streams, and let its close have worked. Then the archive has the layout of C02 with exactly the entries that were recorded and the comment set last; it opens and what succeeded reads back (C01), in the ordinary way without further condition (C52); readers that follow the specification see what succeeded (C94); it opens the same with anything behind it that does not look like an end (C82) and with anything in front of its directory (C83); its entries share no bytes (C89); cut before its comment it does not open, cut inside it opens with the rest of it (C39); without a comment three numbers decide whether it opens (C91); opening it shows whether its end was ambiguous (C79); and two sessions of any of the three kinds that leave equal archives have equal entries (C87).", "quantifier": "all codecs and encoders meeting the contracts, all sequences of calls or polls, all sinks, archives of less than 2^64 bytes, with the conditions of the cited properties", "why_tests_cant": "The properties were shown for one way of writing; the others differ in every pattern of waits and failures, which no test goes through.", "anchors": ["src/base/write/mod.rs:close", "src/base/write/entry_stream.rs:poll_write", "src/base/write/entry_stream.rs:close", "src/base/write/entry_whole.rs:write", "src/base/read/mod.rs:file"]}
{"id": "C106", "title": "A source that fails in between costs a reader polls, and nothing else", "statement": "Let the decoder keep the contract of C98 and wait only when the source made it wait; the source may wait and fail as it likes. A caller that polls the reader of an entry on after an error, more often than the source waits or fails plus once for each byte, gets all of the content and the matching checksum, if the entry can be read at all. Reading to the end with checksum, polled as often as the source can make it wait plus once for each byte, always comes to an answer: the one of a source that is always ready (the name of the error for malformed data apart), or a fault of the source. A caller that goes through the bytes and polls that often passes all entries, or is told of a fault by next, done or skip, never that an entry it read was not read out; what it passed before is right. Hence an archive made in any of the ways of C105 opens or tells a fault, each entry that succeeded reads as exactly its bytes or tells a fault, and polled on reads as its bytes whatever fails; and if nothing failed or was dropped when it was written, it can be gone through in the same sense.", "quantifier": "all codecs, encoders and decoders meeting the contracts, all sources with any faults and waits, buffer sizes above zero, archives of less than 2^64 bytes", "why_tests_cant": "Where a fault falls into the work of decoder and reader is up to the source; no test lets a source fail and polls on.", "anchors": ["src/base/read/io/entry.rs:poll_read", "src/base/read/io/entry.rs:read_to_end_checked", "src/base/read/io/hashed.rs:poll_read", "src/base/read/io/compressed.rs:poll_read", "src/base/read/stream.rs:done", "src/base/read/stream.rs:skip", "src/base/read/seek.rs:reader_without_entry"]}
{"id": "C107", "title": "A walk that does not come to the end passed what stands in the bytes; a cut archive is not taken for a whole one", "statement": "Let the decoder keep the contract of C98; the source may wait and fail as it likes, the caller polls as it likes, leaves entries by done or skip, and does not go on behind an entry whose polls complained of malformed data. Whatever bytes are gone through and whatever comes of it, the entries that were left stand in the bytes one after the other and the polls handed over beginnings of their contents, all of it where done accepted them or a poll said that there is no more; of the entry at which the walk stopped, its header stands there, and what was handed over before a complaint is a beginning of what the data decode to. Let the bytes be the first n of an archive that can be gone through (C68), and the method's decoder see no further than its end and take back nothing when it is given more (DEFLATE's does both). Then the entries passed are the first ones of the archive and lie before the cut, but for at most one more, which is the next one of the archive: what was handed over of it is a beginning of its content, it is told as it is if its header is whole, and if it was left then the cut went through it. The walk says that it is through only if it passed all entries of the whole archive and the signature of the directory lies before the cut. If the decoder is also lively, a caller with the patience of C106 passes every entry that lies before the cut, or is told of a fault of the source.", "quantifier": "all decoders meeting the contract, all sources with any faults and waits, all callers as said, all cuts, archives of less than 2^64 bytes", "why_tests_cant": "No test reads a truncated archive; where a cut falls, how the decoder reads ahead and where the source waits or fails combine without bound.", "anchors": ["src/base/read/stream.rs:next_with_entry", "src/base/read/stream.rs:next_without_entry", "src/base/read/stream.rs:done", "src/base/read/stream.rs:skip", "src/base/read/mod.rs:lfh", "src/base/read/io/entry.rs:poll_read", "src/base/read/io/compressed.rs:poll_read"]}
{"id": "C108", "title": "Whatever is done to one reader over a troublesome source, each entry is read as itself, around any decoder", "statement": "Let the decoder keep the contract of C98. One reader is used again and again over a source whose seeks may be pending, fail (leaving it at any position) or be refused, and whose reads wait and fail as they like; each call to open an entry is given up after as many waits as its caller puts up with, and the entry readers are polled in any way and dropped wherever the decoder is. Then each call ends as it does on the plain bytes, or with an error the source reports, or with a refused seek, and the last not if the source takes every position a header leads to and the entry can be opened; it is given up only if the source waits more often than the caller does. Up to the poll that finds the data malformed, if there is one (and then they are), the polls of each use hand over a beginning of its own entry, all of it once one of them says so, and their other errors are ones the source reports. After any such history, if the decoder is also lively, reading an entry through buffers enough for its length and the waits of the source comes to an answer, and whatever the buffers an answer is that of the plain bytes up to the kind of error malformed data are reported with, or one of the above. If the archive was made in any of the ways of C105 and its end is found, the answer is what its session wrote, or a fault the source reports, or the caller gave up.", "quantifier": "all decoders meeting the contract, all sources with any schedule of seeks, reads, waits, faults and refused positions, all histories of calls and polls", "why_tests_cant": "No test has a seek that waits or fails, or drops an entry reader in the middle; what a decoder had read ahead when it was dropped, where the failed seek left the source and what the next call does combine without bound.", "anchors": ["src/base/read/seek.rs:reader_without_entry", "src/base/read/seek.rs:reader_with_entry", "src/base/read/io/entry.rs:new_with_borrow", "src/base/read/io/entry.rs:poll_read", "src/base/read/io/entry.rs:read_to_end_checked", "src/base/read/io/compressed.rs:poll_read", "src/file/mod.rs:seek_to_data_offset"]}
{"id": "C109", "title": "Entries carried from one archive into another arrive as they were, and those that do not say why, around any decoder and encoder", "statement": "Let decoder and encoder keep the contracts of C98 and C101, and let the content of each entry of the old archive be shorter than 2^64 bytes. A caller opens entries of the old archive one after another, copies each chunk by chunk into a stream of a new archive's writer, compares the checksum, and closes the stream if it matches, or drops it; in between it calls the writer as it likes. The seeks and reads of the old archive's source wait, fail and are refused as they like, the new archive's sink waits and fails as it likes, and the caller gives up after as many waits as it puts up with. Then each errand ends well only if the entry can be read, and otherwise says why: what reading the plain bytes says (up to the kind of error that malformed data are reported with), an error the source reports, a refused seek (not if the source takes every position a header leads to and the entry can be read), a checksum that differs, a fault of the sink, or the caller's patience or buffers were fewer than the waits and bytes of the entry. If the new archive is closed and its end is found, then whatever went wrong on the way it has as many entries as errands and calls left one, in their order, and each carried entry is read from it, with the name and properties the caller gave it and around any decoder, as exactly the bytes that reading it from the old archive gives. If nothing is in the way and the caller is patient enough, all is carried and the new archive is closed.", "quantifier": "all decoders and encoders meeting the contracts, all old archives shorter than 2^64 bytes when decoded, all sources and sinks with any schedule, all sessions of carrying and calling", "why_tests_cant": "No test copies between archives, let alone with a source and a sink that fail while an entry is half-way; the interleavings of chunks, waits and faults on both sides have no bound.", "anchors": ["src/base/read/seek.rs:reader_with_entry", "src/base/read/io/entry.rs:poll_read", "src/base/read/io/entry.rs:compute_hash", "src/base/write/entry_stream.rs:poll_write", "src/base/write/entry_stream.rs:close", "src/base/write/mod.rs:write_entry_stream", "src/base/write/mod.rs:close"]}
{"id": "C110", "title": "Entries copied from a stream into a new archive while they arrive are what lies in the stream, and what does not arrive says why", "statement": "Let decoder and encoder keep the contracts of C98 and C101, and let a stream of fewer than 2^64 bytes hold anything. A caller goes through it entry by entry; for each it decides by what the header told either to skip it or to copy it chunk by chunk into a new archive under a name and method of its choice (any that a caller can make an entry with), through buffers of less than 2^64 bytes in all. It calls done before it closes the new entry, drops the new entry when the old one ends in an error, and skips the rest when the new archive's writer ended early. The source waits and fails as it likes, and so does the sink; the caller gives up after as many waits as it puts up with. Then the entries it left behind stand in the stream one after the other; each that it copied was given to the writer with exactly the bytes that lie there, each that was cut off with a beginning of them; of at most one more, the last, nothing comes; and only if it came to the directory's signature does it say that it came to the end. If the new archive is closed and its end is found, it has an entry for each that was copied and no other, in order, and each is read from it around any decoder, under the name given and with the content that lies in the stream. If the stream holds entries up to its directory and the caller has patience for the source, it is gone through to the end whatever the sink does, unless a fault of the source is told. If the entries made are such as the writer takes, a writer that does not end well met a fault of the sink or was given up. If source and sink do not fail and the caller is patient enough, all that it wants is copied and the new archive is closed.", "quantifier": "all decoders and encoders meeting the contracts, all streams shorter than 2^64 bytes, all sources and sinks with any schedule, all plans of copying and passing by, all buffer sizes", "why_tests_cant": "No test copies from a stream; which entry a fault or a wait on either side falls into, and how reading, done, skipping and writing interleave there, has no bound.", "anchors": ["src/base/read/stream.rs:next_with_entry", "src/base/read/stream.rs:done", "src/base/read/stream.rs:skip", "src/base/read/io/entry.rs:poll_read", "src/base/write/entry_stream.rs:poll_write", "src/base/write/entry_stream.rs:close", "src/base/write/mod.rs:write_entry_stream", "src/base/write/mod.rs:close"]}
{"id": "C111", "title": "From an archive that was cut short a new one is made that holds what lies before the cut, and nothing that the old one did not hold", "statement": "Let decoder and encoder keep the contracts of C98 and C101, the decoder reading no further than the data go, and let an archive of fewer than 2^64 bytes be cut anywhere. A caller copies from the stream as in C110. Whatever source and sink do, the entries it came by are those that the archive held before the cut, entry for entry and byte for byte, and after them at most one with a beginning of the content of the entry that the cut goes through; only if all entries of the archive were come by does it say that it came to the end. Whatever the sink does, a caller with patience for the source comes by every entry that lies before the cut with something of the archive behind it, unless a fault of the source is told. If source and sink do not fail, the entries made are such as the writer takes, and each call is awaited for as long as the sink makes wait and once more for each byte that the buffers hold, every one of these entries that the caller wants is copied and the new archive is closed; if its end is found, each is in its place there, under the name given, and its whole content is read from it around any decoder, unless a fault of that source is told. Whatever source and sink did, each entry of a new archive that was closed and whose end is found reads as an entry of the old archive, or as a beginning of the one that the cut goes through.", "quantifier": "all decoders and encoders meeting the contracts, all archives shorter than 2^64 bytes, all places of the cut, all sources and sinks with any schedule, all plans of copying and passing by", "why_tests_cant": "No test cuts an archive; the cut may fall anywhere, and a test checks a few places with one codec and a source that never waits.", "anchors": ["src/base/read/stream.rs:next_with_entry", "src/base/read/stream.rs:done", "src/base/read/stream.rs:skip", "src/base/read/io/entry.rs:poll_read", "src/base/write/entry_stream.rs:poll_write", "src/base/write/entry_stream.rs:close", "src/base/write/mod.rs:write_entry_stream", "src/base/write/mod.rs:close"]}
{"id": "C112", "title": "What is copied from hand to hand as a stream stays what it was", "statement": "Let a stream of fewer than 2^64 bytes hold entries up to its directory, and let a caller copy from it as in C110 into a new archive, with decoder and encoder keeping the contracts of C98 and C101, making only compressed entries. Suppose it says that it came to the end, every entry was passed by or copied without an error, at least one was copied, the new archive was closed and is shorter than 2^64 bytes. Then the new archive can itself be gone through as a stream up to its directory: there lie the entries that were wanted and no other, in order, with the names (stored bytes, and the text when the extra fields let it through), methods and dates given and the content they had. So any number of callers may hand the archive on, each with a decoder, an encoder, plans, a source and a sink of its own: the contents that lie in the last archive are some of those of the first, in their order, at least one, and all of them if nobody passed an entry by. If source and sink do not fail, the caller is patient, the entries made are such as the writer takes and one is wanted, a hand does end well, and leaves such an archive.", "quantifier": "all codecs, decoders and encoders meeting the contracts, all such streams, any number of hands, all sources and sinks with any schedule, all plans of copying and passing by", "why_tests_cant": "No test reads as a stream what was written from a stream; the number of hands and what each does have no bound.", "anchors": ["src/base/read/stream.rs:next_with_entry", "src/base/read/stream.rs:done", "src/base/read/stream.rs:skip", "src/base/read/io/entry.rs:poll_read", "src/base/write/entry_stream.rs:write_lfh", "src/base/write/entry_stream.rs:close", "src/base/write/mod.rs:write_entry_stream", "src/base/write/mod.rs:close"]}
{"id": "C113", "title": "Several streams copied one after the other into one archive lie there in that order, each with what it held", "statement": "Let decoder and encoder keep the contracts of C98 and C101. A caller has any number of streams, each of fewer than 2^64 bytes and holding anything, and copies from one after the other into one new archive as in C110; whatever ends one stream, it begins the next. If the new archive is closed and its end is found, it has as many entries as were copied of all streams together; the entries of earlier streams stand before those of later ones, in the order they had, each place is taken by one that was copied, and each is read around any decoder, under the name given, with the content that lies in its stream, unless a fault of that source is told; of a stream that is said to have come to its end every entry was come by. If the streams are sources over the same archive, begun again after each fault, what was copied any time is an entry of that archive and is read with its content. If source and sink do not fail, the streams hold entries up to their directories, the entries made are such as the writer takes and the caller is patient enough, each stream is gone through to its end, all that is wanted is copied and the new archive is closed. If they hold entries and then anything, as archives do that were cut short, all of these entries that are wanted are copied and the new archive is closed, each call being awaited as in C111.", "quantifier": "all decoders and encoders meeting the contracts, any number of streams shorter than 2^64 bytes, all sources and sinks with any schedule, all plans of copying and passing by", "why_tests_cant": "No test merges archives or begins again after a fault; how many streams there are and where each breaks off has no bound.", "anchors": ["src/base/read/stream.rs:next_with_entry", "src/base/read/stream.rs:done", "src/base/read/stream.rs:skip", "src/base/read/io/entry.rs:poll_read", "src/base/write/entry_stream.rs:poll_write", "src/base/write/entry_stream.rs:close", "src/base/write/mod.rs:write_entry_stream", "src/base/write/mod.rs:close"]}
{"id": "C114", "title": "A caller that compares the checksum before it closes an entry copies none from a stream that does not fit", "statement": "Let decoder and encoder keep the contracts of C98 and C101. A caller copies from a stream as in C110, but when an entry has arrived it asks compute_hash and calls done, and closes the new entry only if the hash is the header's crc32() or the entry is one whose header it does not heed; otherwise it drops the new entry and goes on. Whatever the stream holds, which entries are heeded, and what source and sink do: an entry that was gone through is copied only if its content has the told checksum or it is not heeded, and is dropped at this point only if it is heeded and has not. If the new archive is closed and its end is found, it has just the entries that were copied, each with the content that lies in the stream. No heeded entry is copied whose content comes of another with the told checksum by changing up to four bytes in a row. A caller that heeds no header does exactly what the one of C110 does. Asking for the hash does not change how done ends: given patience the stream is gone through to its directory unless a fault of the source is told, and when nothing is in the way every entry that the caller wants and that fits is copied.", "quantifier": "all decoders and encoders meeting the contracts, all byte strings shorter than 2^64 as the stream, all sources and sinks with any schedule, all plans of copying and passing by, all choices of the entries to heed", "why_tests_cant": "The tests read whole entries with the checked helpers; none asks compute_hash in the middle of a stream and goes on, and no set of damaged streams is all of them.", "anchors": ["src/base/read/io/entry.rs:compute_hash", "src/base/read/io/hashed.rs:swap_and_compute_hash", "src/base/read/stream.rs:next_with_entry", "src/base/read/stream.rs:done", "src/base/read/stream.rs:skip", "src/base/read/io/entry.rs:poll_read", "src/base/write/entry_stream.rs:poll_write", "src/base/write/entry_stream.rs:close", "src/base/write/mod.rs:write_entry_stream", "src/base/write/mod.rs:close"]}
