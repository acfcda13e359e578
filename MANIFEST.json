{
 "claims": [
  {
   "property": "C01",
   "status": "partial",
   "theorems": [
    "C01_round_trip_partial",
    "C01_refuted",
    "C01_refuted_forbidden"
   ],
   "note": "premise `unambiguous`: the end of the archive is recognisable, no whole-entry size is exactly 0xFFFFFFFF beyond 4 GiB, no refused entry is in a ZIP64 directory, counters fit; and streams under force_no_zip64 must have equal sizes (they are exchanged). Counterexamples to the unconditional claim given"
  },
  {
   "property": "C02",
   "status": "proved",
   "theorems": [
    "C02_layout"
   ],
   "note": ""
  },
  {
   "property": "C03",
   "status": "proved",
   "theorems": [
    "C03_classic",
    "C03_zip64"
   ],
   "note": "arbitrary leading bytes, gap, trailing bytes and read schedule; the reported list drops an empty last extra field (documented in SpecArchive.heard)"
  },
  {
   "property": "C04",
   "status": "proved",
   "theorems": [
    "C04_local_header",
    "C04_central_header",
    "C04_end_record",
    "C04_zip64_end_record",
    "C04_zip64_locator"
   ],
   "note": "serialised records equal the independent APPNOTE tables and parse back to the same fields; records without a flag word are byte-inverse"
  },
  {
   "property": "C05",
   "status": "proved",
   "theorems": [
    "C05_flags_decode",
    "C05_flags_encode"
   ],
   "note": ""
  },
  {
   "property": "C06",
   "status": "proved",
   "theorems": [
    "C06_accepted",
    "C06_rejected",
    "C06_bijection",
    "C06_attributes"
   ],
   "note": ""
  },
  {
   "property": "C07",
   "status": "partial",
   "theorems": [
    "C07_extra_length_partial",
    "C07_extra_blocks_partial",
    "C07_zip64_field",
    "C07_zip64_central",
    "C07_refuted"
   ],
   "note": "exact relation proved for all lists; the full claim is false for ZIP64 fields carrying a disk number (8 bytes counted, 4 written), witness in C07_refuted"
  },
  {
   "property": "C08",
   "status": "partial",
   "theorems": [
    "C08_extra_roundtrip_partial",
    "C08_refuted"
   ],
   "note": "false for a trailing empty field (ignored by the parser)"
  },
  {
   "property": "C09",
   "status": "partial",
   "theorems": [
    "C09_no_panic_release_partial",
    "C09_no_panic_fitting_partial",
    "C09_success_is_fieldwise",
    "C09_refuted"
   ],
   "note": "with overflow checks an overrunning field panics; never panics without them"
  },
  {
   "property": "C10",
   "status": "proved",
   "theorems": [
    "C10_utf8_strings"
   ],
   "note": "all constructors and every string a reader hands out"
  },
  {
   "property": "C100",
   "status": "proved",
   "theorems": [
    "C100_stands",
    "C100_walked"
   ],
   "note": "all of it; encoder and decoder are records of functions with the contracts engine_ok and decoder_ok as visible premises. An archive without entries is refused by the stream reader (C33), hence the condition"
  },
  {
   "property": "C101",
   "status": "proved",
   "theorems": [
    "C101_round_trip",
    "C101_met"
   ],
   "note": "all of it; the encoder is a record of functions with engine_ok and engine_lively as visible premises, both met by a buffering encoder around any codec (C101_met). C97 said only what comes of a session in which no failed poll was ignored; this says that polls lead to an end"
  },
  {
   "property": "C102",
   "status": "proved",
   "theorems": [
    "C102_reads",
    "C102_walked",
    "C102_round",
    "C102_through",
    "C102_met"
   ],
   "note": "all of it; encoder and decoder are records of functions with engine_ok, engine_lively, decoder_ok and decoder_lively as visible premises, all shown to be met (C101_met, C102_met, C98_decoder). The records between entries are read by calls that are taken to be polled until they answer"
  },
  {
   "property": "C103",
   "status": "proved",
   "theorems": [
    "C103_exact",
    "C103_checked",
    "C103_awaited",
    "C103_others"
   ],
   "note": "all of it; engine_ok and engine_lively are visible premises, shown to be met in C101_met. A failed poll of a compressed stream must not have been ignored (as in C97)"
  },
  {
   "property": "C104",
   "status": "proved",
   "theorems": [
    "C104_call",
    "C104_session",
    "C104_back",
    "C104_closed",
    "C104_zero"
   ],
   "note": "all of it; codec_ok, engine_ok and engine_lively are visible premises, shown to be met in C104_case. A failed call is not made again on the same stream (awaited callers drop it)"
  },
  {
   "property": "C105",
   "status": "proved",
   "theorems": [
    "C105_layout",
    "C105_back",
    "C105_ordinary",
    "C105_seen",
    "C105_padded",
    "C105_front",
    "C105_apart",
    "C105_cut",
    "C105_cut_comment",
    "C105_commentless",
    "C105_recognized",
    "C105_told"
   ],
   "note": "all of it; the conditions (unambiguous end, sizes not exchanged) are those of the properties it extends, where each is shown to be needed"
  },
  {
   "property": "C106",
   "status": "proved",
   "theorems": [
    "C106_polls",
    "C106_settles",
    "C106_walked",
    "C106_made",
    "C106_made_walked"
   ],
   "note": "all of it; that a decoder can go on after its source failed is part of the contract of C98"
  },
  {
   "property": "C107",
   "status": "proved",
   "theorems": [
    "C107_passed",
    "C107_cut",
    "C107_complete",
    "C107_recovered",
    "C107_made",
    "C107_deflate"
   ],
   "note": "all of it; a stored entry through which the cut went polls as if it were complete; its checksum or the next call tells"
  },
  {
   "property": "C108",
   "status": "proved",
   "theorems": [
    "C108_history",
    "C108_afterwards",
    "C108_made"
   ],
   "note": "all of it; the number of buffers a caller needs to come to an answer is bounded by the source's waits and the length of the entry"
  },
  {
   "property": "C109",
   "status": "proved",
   "theorems": [
    "C109_told",
    "C109_blamed",
    "C109_copied",
    "C109_done"
   ],
   "note": "all of it; entries written after force_no_zip64 are covered as far as no size had to be exchanged (the writer's own limits, C52); the caller's loop is futures-lite's copy, which is modelled as the library's callers use it"
  },
  {
   "property": "C11",
   "status": "partial",
   "theorems": [
    "C11_texts_partial",
    "C11_refuted"
   ],
   "note": "premise `unambiguous`: the end of the archive is recognisable, no whole-entry size is exactly 0xFFFFFFFF beyond 4 GiB, no refused entry is in a ZIP64 directory, counters fit; and texts_clear (no Unicode field of unknown version in the way, no stale one, an empty string has no alternative)"
  },
  {
   "property": "C110",
   "status": "proved",
   "theorems": [
    "C110_told",
    "C110_ends",
    "C110_blamed",
    "C110_copied",
    "C110_done"
   ],
   "note": "all of it; what lies in the stream is meant as C68 and C107 mean it: done compares neither checksum nor size, so stored data that are cut short or changed are copied as they are (C110_case4)"
  },
  {
   "property": "C111",
   "status": "proved",
   "theorems": [
    "C111_honest",
    "C111_through",
    "C111_saved",
    "C111_found",
    "C111_only"
   ],
   "note": "all of it; the beginning that may be copied of the entry the cut goes through is not told apart from a whole entry when its data are stored, since done compares no size (C111_case2)"
  },
  {
   "property": "C112",
   "status": "proved",
   "theorems": [
    "C112_hand",
    "C112_hands",
    "C112_works"
   ],
   "note": "all of it; entries that are streamed into the new archive without compression are refused by the stream reader (finding 10, C112_case3), so making compressed ones is a premise"
  },
  {
   "property": "C113",
   "status": "proved",
   "theorems": [
    "C113_copied",
    "C113_done",
    "C113_again",
    "C113_saved"
   ],
   "note": "all of it; that a place is taken once only when the same archive is begun again is up to the plans (nothing keeps a caller from copying an entry twice, C113_case2)"
  },
  {
   "property": "C114",
   "status": "proved",
   "theorems": [
    "C114_told",
    "C114_ends",
    "C114_blamed",
    "C114_copied",
    "C114_done",
    "C114_marred",
    "C114_plain"
   ],
   "note": "all of it; which headers tell a checksum is for the caller to guess, since whether an entry has a data descriptor is not public: one that always compares refuses those that have one (C114_case2)"
  },
  {
   "property": "C12",
   "status": "proved",
   "theorems": [
    "C12_build_then_read",
    "C12_read_then_build",
    "C12_disjoint_bits",
    "C12_chrono",
    "C12_calendar",
    "C12_default"
   ],
   "note": ""
  },
  {
   "property": "C13",
   "status": "partial",
   "theorems": [
    "C13_setters_on_cleared_partial",
    "C13_setters_or_partial",
    "C13_setters_leave_others",
    "C13_year",
    "C13_refuted"
   ],
   "note": "setters OR the new bits onto the old ones; full claim refuted"
  },
  {
   "property": "C14",
   "status": "proved",
   "theorems": [
    "C14_located",
    "C14_located_faults"
   ],
   "note": ""
  },
  {
   "property": "C15",
   "status": "partial",
   "theorems": [
    "C15_comment_partial",
    "C15_refuted",
    "C15_refuted_long"
   ],
   "note": "for comments up to 65535 bytes without an end record signature; both conditions shown necessary"
  },
  {
   "property": "C16",
   "status": "proved",
   "theorems": [
    "C16_poll",
    "C16_offset"
   ],
   "note": ""
  },
  {
   "property": "C17",
   "status": "proved",
   "theorems": [
    "C17_schedule"
   ],
   "note": "a sink that accepts zero bytes counts as failing (WriteZero)"
  },
  {
   "property": "C18",
   "status": "proved",
   "theorems": [
    "C18_prefix"
   ],
   "note": "for every stopping policy that stops at an upstream error"
  },
  {
   "property": "C19",
   "status": "partial",
   "theorems": [
    "C19_no_zip64_partial",
    "C19_refused_whole",
    "C19_refused_stream",
    "C19_refuted",
    "C19_refuted_directory"
   ],
   "note": "no ZIP64 structure is ever emitted and entries that need it are refused; but streamed sizes are exchanged and the directory size is silently saturated"
  },
  {
   "property": "C20",
   "status": "partial",
   "theorems": [
    "C20_zip64_partial",
    "C20_refuted_directory",
    "C20_refuted"
   ],
   "note": "holds for sizes, offsets and counts; false for a directory of 4 GiB or more, and for a size of exactly 0xFFFFFFFF beyond 4 GiB as the reader sees it"
  },
  {
   "property": "C21",
   "status": "partial",
   "theorems": [
    "C21_stream_partial",
    "C21_refuted",
    "C21_refuted_exchanged"
   ],
   "note": "central directory: true values unless ZIP64 is forbidden (sizes exchanged); the data descriptor holds placeholders in ZIP64 mode"
  },
  {
   "property": "C22",
   "status": "partial",
   "theorems": [
    "C22_refusal_partial",
    "C22_refuted",
    "C22_opening",
    "C22_stream_partial",
    "C22_refuted_stream"
   ],
   "note": "exact outcome of whole-entry and stream writes; a stream's comment is refused after the entry was written; false beyond 4 GiB, where the directory's ZIP64 field makes 65524..65535 bytes of extra fields fail late"
  },
  {
   "property": "C23",
   "status": "proved",
   "theorems": [
    "C23_no_panic"
   ],
   "note": "premise on the external encoder: it takes at least one byte of a non-empty buffer"
  },
  {
   "property": "C24",
   "status": "partial",
   "theorems": [
    "C24_others_partial",
    "C24_refuted"
   ],
   "note": "premise `unambiguous`: the end of the archive is recognisable, no whole-entry size is exactly 0xFFFFFFFF beyond 4 GiB, no refused entry is in a ZIP64 directory, counters fit; with ZIP64 both forced and forbidden the entry refused as one too many is listed"
  },
  {
   "property": "C25",
   "status": "proved",
   "theorems": [
    "C25_sink_open",
    "C25_counts"
   ],
   "note": ""
  },
  {
   "property": "C26",
   "status": "proved",
   "theorems": [
    "C26_open",
    "C26_open_steady",
    "C26_read"
   ],
   "note": ""
  },
  {
   "property": "C27",
   "status": "proved",
   "theorems": [
    "C27_content",
    "C27_content_mem",
    "C27_isolated",
    "C27_consumed"
   ],
   "note": "C27_consumed needs the codec law that a decoder does not consume more than it is given"
  },
  {
   "property": "C28",
   "status": "partial",
   "theorems": [
    "C28_checked_partial",
    "C28_string",
    "C28_string_errors",
    "C28_refuted"
   ],
   "note": "holds for the first checked read after any plain reads; a second checked read of the same reader fails because finalising resets the hash"
  },
  {
   "property": "C29",
   "status": "proved",
   "theorems": [
    "C29_corruption"
   ],
   "note": ""
  },
  {
   "property": "C30",
   "status": "proved",
   "theorems": [
    "C30_interleaved"
   ],
   "note": ""
  },
  {
   "property": "C31",
   "status": "proved",
   "theorems": [
    "C31_any_order"
   ],
   "note": ""
  },
  {
   "property": "C32",
   "status": "proved",
   "theorems": [
    "C32_seek",
    "C32_mem"
   ],
   "note": ""
  },
  {
   "property": "C33",
   "status": "partial",
   "theorems": [
    "C33_walk_partial",
    "C33_refuted",
    "C33_refuted_stored"
   ],
   "note": "every archive with at least one entry whose calls all succeeded (no dropped streams, no streamed Stored entry, precompressed data being one complete stream); an empty archive gives UnexpectedHeaderError instead of None"
  },
  {
   "property": "C34",
   "status": "partial",
   "theorems": [
    "C34_descriptor_partial",
    "C34_misled",
    "C34_refuted"
   ],
   "note": "exact for 32-bit descriptors, with a signature or with a CRC that is not the signature; proved wrong for every 64-bit one and for the ambiguous CRC"
  },
  {
   "property": "C35",
   "status": "proved",
   "theorems": [
    "C35_done"
   ],
   "note": ""
  },
  {
   "property": "C36",
   "status": "proved",
   "theorems": [
    "C36_split",
    "C36_split_zip64",
    "C36_stream_features",
    "C36_stream_encrypted",
    "C36_wrong_directory",
    "C36_wrong_local",
    "C36_wrong_stream"
   ],
   "note": "an encrypted header with a Stored+descriptor combination is refused for the latter reason"
  },
  {
   "property": "C37",
   "status": "proved",
   "theorems": [
    "C37_combine",
    "C03_zip64",
    "C03_classic",
    "C36_split_zip64"
   ],
   "note": "field-wise precedence, and its effect on opening"
  },
  {
   "property": "C38",
   "status": "partial",
   "theorems": [
    "C38_panics_partial",
    "C38_no_panic_partial",
    "C38_read",
    "C38_stream_partial",
    "C38_refuted"
   ],
   "note": "panics characterised exactly; two panicking inputs exhibited (98 and 42 bytes)"
  },
  {
   "property": "C39",
   "status": "partial",
   "theorems": [
    "C39_cut_partial",
    "C39_comment",
    "C39_entry_partial",
    "C39_refuted",
    "C39_refuted_nested",
    "C39_refuted_stream"
   ],
   "note": "a cut before the archive comment is always refused when the archive has one end-record signature only; a cut inside the comment is accepted silently; a cut behind a stored nested archive opens that archive; cut entry data is refused unless stored with the same CRC"
  },
  {
   "property": "C40",
   "status": "partial",
   "theorems": [
    "C40_copy_partial",
    "C40_generations_partial",
    "C40_read_partial",
    "C40_opened_partial",
    "C40_refuted",
    "C40_refuted_name"
   ],
   "note": "any number of generations for entries without ZIP64 field in archives up to 4 GiB, and every entry of any archive that opens and does not claim UTF-8 falsely is such; false for entries that were streamed (second copy does not read) and for entries whose archive claimed UTF-8 falsely (another name)"
  },
  {
   "property": "C41",
   "status": "partial",
   "theorems": [
    "C41_permissions",
    "C41_nothing_else",
    "C41_archive_partial",
    "C41_refuted"
   ],
   "note": "premise `unambiguous`: the end of the archive is recognisable, no whole-entry size is exactly 0xFFFFFFFF beyond 4 GiB, no refused entry is in a ZIP64 directory, counters fit"
  },
  {
   "property": "C42",
   "status": "proved",
   "theorems": [
    "C42_dir"
   ],
   "note": ""
  },
  {
   "property": "C43",
   "status": "proved",
   "theorems": [
    "C43_crc_pieces",
    "C43_crc_whole"
   ],
   "note": ""
  },
  {
   "property": "C44",
   "status": "partial",
   "theorems": [
    "C44_header_partial",
    "C44_refuted"
   ],
   "note": "premise `unambiguous`: the end of the archive is recognisable, no whole-entry size is exactly 0xFFFFFFFF beyond 4 GiB, no refused entry is in a ZIP64 directory, counters fit"
  },
  {
   "property": "C45",
   "status": "partial",
   "theorems": [
    "C45_dropped_partial",
    "C45_refuted"
   ],
   "note": "premise `unambiguous`: the end of the archive is recognisable, no whole-entry size is exactly 0xFFFFFFFF beyond 4 GiB, no refused entry is in a ZIP64 directory, counters fit"
  },
  {
   "property": "C46",
   "status": "partial",
   "theorems": [
    "C46_passes",
    "C46_all",
    "C46_refuted"
   ],
   "note": "every sequence of local entries of any origin, with 32-bit data descriptors; false for the 64-bit descriptors of the ZIP64 format"
  },
  {
   "property": "C47",
   "status": "partial",
   "theorems": [
    "C47_classic",
    "C47_zip64",
    "C47_written_partial",
    "C47_refuted",
    "C47_refuted_names"
   ],
   "note": "archives whose directory describes exactly the entries before it, and archives this crate wrote (premise `unambiguous`: the end of the archive is recognisable, no whole-entry size is exactly 0xFFFFFFFF beyond 4 GiB, no refused entry is in a ZIP64 directory, counters fit); false where directory and local entries disagree, which is never checked"
  },
  {
   "property": "C48",
   "status": "partial",
   "theorems": [
    "C48_written",
    "C48_refuted",
    "C48_refuted_written"
   ],
   "note": "entries this crate wrote, if the archive is unambiguous, the sizes are not exchanged (see C21) and the caller's own size is right; false otherwise: the size is never compared with the content"
  },
  {
   "property": "C49",
   "status": "proved",
   "theorems": [
    "C49_chain",
    "C49_new",
    "C49_fits",
    "C49_file"
   ],
   "note": ""
  },
  {
   "property": "C50",
   "status": "partial",
   "theorems": [
    "C50_behind",
    "C50_refuted"
   ],
   "note": "the appended bytes and all results are the same as on an empty sink; the whole does not open, since offsets count from the writer's start"
  },
  {
   "property": "C51",
   "status": "partial",
   "theorems": [
    "C51_new",
    "C51_read",
    "C51_gone",
    "C51_index",
    "C51_interleaved",
    "C51_written_partial",
    "C51_refuted"
   ],
   "note": "all of it but the last clause: after the file was replaced an unchecked read delivers the new bytes; reading back premise `unambiguous`: the end of the archive is recognisable, no whole-entry size is exactly 0xFFFFFFFF beyond 4 GiB, no refused entry is in a ZIP64 directory, counters fit"
  },
  {
   "property": "C52",
   "status": "proved",
   "theorems": [
    "C52_all_work",
    "C52_unambiguous",
    "C52_round_trip",
    "C52_refuted"
   ],
   "note": "all of it, with the conditions of the statement (definitions handy, ordinary_op, proper, ordinary in SpecOrdinary.v); C52_unambiguous turns every theorem with the premise unambiguous into one with conditions on the caller's arguments and the archive's length; C52_refuted shows that the condition on byte 7 cannot simply be dropped"
  },
  {
   "property": "C53",
   "status": "proved",
   "theorems": [
    "C53_size",
    "C53_round_trip",
    "C53_compressed"
   ],
   "note": "all of it; session_size in SpecSize.v is the formula"
  },
  {
   "property": "C54",
   "status": "proved",
   "theorems": [
    "C54_recut"
   ],
   "note": "all of it"
  },
  {
   "property": "C55",
   "status": "partial",
   "theorems": [
    "C55_inner_partial",
    "C55_refuted"
   ],
   "note": "results and bytes are as stated, but what follows lies len b further on than the offsets written into the archive say (the offset writer does not count such bytes): the archive does not open"
  },
  {
   "property": "C56",
   "status": "partial",
   "theorems": [
    "C56_polled_partial",
    "C56_refuted"
   ],
   "note": "all but the last sentence: closing through the trait does not complete the entry, which is then missing without any error"
  },
  {
   "property": "C57",
   "status": "partial",
   "theorems": [
    "C57_whole",
    "C57_opens",
    "C57_refuses_partial",
    "C57_stream",
    "C57_stream_refuses",
    "C57_refuted"
   ],
   "note": "all of it, except that a directory too large for one allocation of the target is refused by a panic (capacity overflow), not by an error"
  },
  {
   "property": "C58",
   "status": "proved",
   "theorems": [
    "C58_open",
    "C58_next",
    "C58_stored"
   ],
   "note": "all of it; the constant is 33 * 2048 + 18 + 65535 + 20 + 52 + 6"
  },
  {
   "property": "C59",
   "status": "proved",
   "theorems": [
    "C59_entry",
    "C59_history",
    "C59_afterwards"
   ],
   "note": "all of it; for compressed entries with the decoder as a function of the bytes, see codec"
  },
  {
   "property": "C60",
   "status": "proved",
   "theorems": [
    "C60_path",
    "C60_where",
    "C60_inside",
    "C60_apart",
    "C60_files",
    "C60_walks",
    "C60_raw_names",
    "C60_unchecked"
   ],
   "note": "all of it, for Unix paths and a tree without symbolic links; sanitize_filename and the operating system are arguments with stated laws. C60_raw_names: without the sanitizer names lead out; C60_unchecked: the example checks no CRC, so it extracts damaged content without complaint"
  },
  {
   "property": "C61",
   "status": "proved",
   "theorems": [
    "C61_back",
    "C61_told",
    "C61_backslash"
   ],
   "note": "all of it, for Unix paths; codec, sanitizer and disk are arguments with stated laws, and a disk that obeys them is given (disk_fair). C61_backslash: with a name that holds a backslash the round trip fails, since the example takes it for a separator"
  },
  {
   "property": "C62",
   "status": "partial",
   "theorems": [
    "C62_strict_partial",
    "C62_exact_partial",
    "C62_small_partial",
    "C62_seen_partial",
    "C62_refuted",
    "C62_refuted_version"
   ],
   "note": "proved for archives of at most 4 GiB for whose entries nothing of ZIP64 is put down (whole entries below 4 GiB, streams while ZIP64 is forbidden; the end may be ZIP64), names of directories declared as UTF-8 (or a method that needs version 2.0), and precompressed data described truthfully; among the others the names alone decide (C62_exact_partial), and the check sees what the calls were given (C62_seen_partial). Missing: streams with ZIP64 allowed (the default), for which the property is false: the version announced is below 4.5 and the descriptor has 32-bit placeholders (C62_refuted); and directories under raw names (C62_refuted_version). C62_small_partial says exactly which calls pass, these included. premise `unambiguous`: the end of the archive is recognisable, no whole-entry size is exactly 0xFFFFFFFF beyond 4 GiB, no refused entry is in a ZIP64 directory, counters fit"
  },
  {
   "property": "C63",
   "status": "partial",
   "theorems": [
    "C63_accepted_partial",
    "C63_accepted_mem_partial",
    "C63_refuted"
   ],
   "note": "proved for the seek and the memory reader, for files in which the end signature does not appear after the end record, a ZIP64 locator signature 20 bytes before the end record belongs to a ZIP64 end, and Unicode extra fields of version 1 have their CRC (others are not empty). Missing: files outside these bounds, for which the property is false: a signature in the comment is taken for the end record, and an empty Unicode field makes opening fail (C63_refuted). Also assumed: the list of entries fits the address space."
  },
  {
   "property": "C64",
   "status": "partial",
   "theorems": [
    "C64_front_partial",
    "C64_deflate_ends",
    "C64_refuted"
   ],
   "note": "proved for archives with at least one entry, none encrypted, whose local headers have no incomplete Unicode field, and where entries with a descriptor are compressed and have no ZIP64 field; C64_deflate_ends shows the assumption about the decoder for a DEFLATE decoder. Missing: the others, for which the property is false: the empty archive, a descriptor behind stored data, a 64-bit descriptor (C64_refuted)."
  },
  {
   "property": "C65",
   "status": "proved",
   "theorems": [
    "C65_reported",
    "C65_single",
    "C65_exact"
   ],
   "note": "all of it; C65_exact is an equivalence, so outside its conditions only success could be missing. What the reading lets pass is visible in SpecExact: texts cut by the end of the data (C65_lenient), up to four bytes left over after the extra fields, the ZIP64 end record's signature (C65_unsigned)"
  },
  {
   "property": "C66",
   "status": "proved",
   "theorems": [
    "C66_listing",
    "C66_next"
   ],
   "note": "all of it. It speaks of what is reported, not of what is reserved meanwhile: Vec::with_capacity asks for room for the number of entries claimed before any is read (finding 8)"
  },
  {
   "property": "C67",
   "status": "proved",
   "theorems": [
    "C67_reported",
    "C67_single",
    "C67_taken",
    "C67_end"
   ],
   "note": "all of it"
  },
  {
   "property": "C68",
   "status": "proved",
   "theorems": [
    "C68_reported",
    "C68_taken",
    "C68_faults",
    "C68_single",
    "C68_bounded",
    "C68_ends"
   ],
   "note": "all of it; the relation goes in SpecThrough.v is the reading of the bytes, pick is the caller. That the descriptor's contents are not looked at is visible in behind and shown by the example C68_lenient"
  },
  {
   "property": "C69",
   "status": "proved",
   "theorems": [
    "C69_outcome",
    "C69_outcome_mem",
    "C69_reported",
    "C69_taken"
   ],
   "note": "all of it; C69_taken has the conditions of C65_exact on the end record, and files shorter than 2^64 - 2^17 bytes"
  },
  {
   "property": "C70",
   "status": "partial",
   "theorems": [
    "C70_kept",
    "C70_works",
    "C70_below",
    "C70_single",
    "C70_back_partial",
    "C70_small",
    "C70_root_refuted",
    "C70_root_panics"
   ],
   "note": "for directories other than the root, where names lose their first letter (C70_root_refuted) or the example panics; the way back is for names that extraction leaves alone and is exact about the end of the archive: if the number of files, the length of the directory or its offset spells the end signature, extraction panics before it makes anything; otherwise (and always below 0x4b50 files and 0x5000000 bytes, C70_small), unless a ZIP64 locator seems to lie before the end record or a size of an archive above 4 GiB equals the placeholder, the files come back"
  },
  {
   "property": "C71",
   "status": "partial",
   "theorems": [
    "C71_kept",
    "C71_outcome",
    "C71_found_partial",
    "C71_refuted",
    "C71_twice"
   ],
   "note": "All but this: the archive of a form opens and gives the parts back exactly if the number of parts, the length of the directory and its start do not happen to spell the end signature (C71_found_partial); C71_refuted is a form of 19280 empty files whose archive cannot be opened"
  },
  {
   "property": "C72",
   "status": "proved",
   "theorems": [
    "C72_settled",
    "C72_bytes",
    "C72_empty",
    "C72_second"
   ],
   "note": "all of it; C72_empty and C72_second show that both bounds are needed"
  },
  {
   "property": "C73",
   "status": "proved",
   "theorems": [
    "C73_exact",
    "C73_session",
    "C73_made"
   ],
   "note": "The whole archive as one function of the entries (C73_exact) or, for data that goes in as it is, of the calls (C73_session); on a sink without faults the calls work (C73_made). Archives of 2^64 bytes and more are excluded; entries must not bring a ZIP64 field of their own."
  },
  {
   "property": "C74",
   "status": "proved",
   "theorems": [
    "C74_left",
    "C74_patient",
    "C74_others",
    "C74_prefix",
    "C74_prefix_close"
   ],
   "note": "A second model of the writer in which the caller drops a pending call refines the first one on a sink with an error at that place (C74_left). An entry stream that is given up is dropped whole; going on with a stream after giving up one write is C56."
  },
  {
   "property": "C75",
   "status": "proved",
   "theorems": [
    "C75_fails",
    "C75_opens",
    "C75_faults",
    "C75_single",
    "C75_apart"
   ],
   "note": "An inductive account of every failure, written on the bytes; it agrees with the model in both directions, its cases exclude each other, and it is the exact complement of the bytes that open."
  },
  {
   "property": "C76",
   "status": "proved",
   "theorems": [
    "C76_fails",
    "C76_faults",
    "C76_single"
   ],
   "note": "The same for the local header that the stream reader reads next; what it reports otherwise is C67."
  },
  {
   "property": "C77",
   "status": "proved",
   "theorems": [
    "C77_session",
    "C77_plain",
    "C77_faults"
   ],
   "note": "session_ends in SpecSession.v is the function of the calls; the compressed data is any that satisfies stores. Archives of 2^64 bytes and more are excluded; entries must not bring a ZIP64 field of their own (op_good)."
  },
  {
   "property": "C78",
   "status": "proved",
   "theorems": [
    "C78_opening",
    "C78_history",
    "C78_afterwards"
   ],
   "note": "A second model of the seek reader (Seeks.v) in which seeks are polled and callers may leave refines the first one. roomy: the limit is at least 131070 bytes behind the data, as far as the two lengths of a header lead."
  },
  {
   "property": "C79",
   "status": "proved",
   "theorems": [
    "C79_exact",
    "C79_checked"
   ],
   "note": "The condition of C01 on the end of the archive (end_clear) is the weakest possible."
  },
  {
   "property": "C80",
   "status": "proved",
   "theorems": [
    "C80_cut",
    "C80_complete",
    "C80_same",
    "C80_deflate",
    "C80_written"
   ],
   "note": "Decoders are asked to give the same whatever stands behind the data they use (dec_local), proved of the DEFLATE model."
  },
  {
   "property": "C81",
   "status": "partial",
   "theorems": [
    "C81_apart_partial",
    "C81_refuted",
    "C81_large_refuted"
   ],
   "note": "proved that messages tell errors apart; false that they are always so: the limit is 65535 files, and an empty file behind 4 GiB of others is called larger than 4 GiB."
  },
  {
   "property": "C82",
   "status": "proved",
   "theorems": [
    "C82_behind",
    "C82_entries",
    "C82_written",
    "C82_zeros"
   ],
   "note": ""
  },
  {
   "property": "C83",
   "status": "proved",
   "theorems": [
    "C83_front",
    "C83_patched",
    "C83_written"
   ],
   "note": ""
  },
  {
   "property": "C84",
   "status": "proved",
   "theorems": [
    "C84_exact",
    "C84_burst",
    "C84_two_bits",
    "C84_entry"
   ],
   "note": ""
  },
  {
   "property": "C85",
   "status": "partial",
   "theorems": [
    "C85_left_out_partial",
    "C85_nothing_partial",
    "C85_all_partial",
    "C85_refuted"
   ],
   "note": "As stated it fails (C85_refuted): an entry refused for the length of its name, comment or extra fields has made the archive a ZIP64 one by then if it is a stream, or large, or far into the archive. Proved: this is the only trace; the session ends as if force_zip64() had been called in place of the refused call, and exactly as without the call if the archive was a ZIP64 one already, ZIP64 was forbidden, or the refusal had another reason."
  },
  {
   "property": "C86",
   "status": "proved",
   "theorems": [
    "C86_call",
    "C86_session"
   ],
   "note": "An encoder's output is written to the inner writer as write_all would; how the external encoders batch it is not modelled."
  },
  {
   "property": "C87",
   "status": "partial",
   "theorems": [
    "C87_told_partial",
    "C87_refuted"
   ],
   "note": "As stated it fails (C87_refuted): with a stream that was given up and a comment holding an end record, a session without entries and one with an entry leave the same bytes. Proved for sessions whose archives are recognisable (the premise of C01); data of streams under force_no_zip64 only if their sizes are equal, for those are exchanged."
  },
  {
   "property": "C88",
   "status": "partial",
   "theorems": [
    "C88_counted_partial",
    "C88_lags",
    "C88_refuted"
   ],
   "note": "False with vectored writes, which are forwarded without being counted (C88_refuted); proved without them, and C88_lags gives the exact lag with them. No caller in the crate uses them."
  },
  {
   "property": "C89",
   "status": "partial",
   "theorems": [
    "C89_apart_partial",
    "C89_room",
    "C89_refuted_shared",
    "C89_refuted",
    "C89_refuted_exchanged"
   ],
   "note": "Proved for the archives of all sessions of this crate's writer, unless sizes were exchanged (C89_refuted_exchanged: a stream under force_no_zip64 then reaches into the next entry). Other archives: overlap is accepted (C89_refuted_shared: n records of 47 bytes give the same file n times)."
  },
  {
   "property": "C90",
   "status": "proved",
   "theorems": [
    "C90_whole",
    "C90_stream",
    "C90_local"
   ],
   "note": "all of it; C90_local shows that the stream's condition is needed: otherwise the local headers differ (the entry's own numbers stand there)"
  },
  {
   "property": "C91",
   "status": "partial",
   "theorems": [
    "C91_exact_partial",
    "C91_coincidences",
    "C91_crowd",
    "C91_refuted"
   ],
   "note": "False as it stands (C91_refuted): if the number of entries, the length of the directory and its start happen to spell the end signature, the archive is unreadable. C91_exact_partial gives the exact condition: seven coincidences (C91_coincidences), the length of the directory being worked out from the calls; otherwise it opens, if it has a ZIP64 locator or nothing looks like one and no size is the placeholder"
  },
  {
   "property": "C92",
   "status": "partial",
   "theorems": [
    "C92_taken_partial",
    "C92_repacked_partial",
    "C92_seen_partial",
    "C92_entries",
    "C92_refuted"
   ],
   "note": "False as it stands (C92_refuted): a stored directory whose name is not ASCII and not told as UTF-8 is announced with version 1.0 in the copy. C92_repacked_partial: for archives of which C63 holds, entries without ZIP64 field and contents below 4 GiB, a copy of at most 4 GiB whose end can be told and whose calls worked, the same entries are seen, and the copy passes exactly if no such directory is among them. C92_seen_partial: what is seen is kept also for archives that do not pass the check (gaps, other data in front), provided that this crate and other readers agree on the end (C95) and sizes are told right; the copy may then be of any size"
  },
  {
   "property": "C93",
   "status": "proved",
   "theorems": [
    "C93_strict",
    "C93_exact",
    "C93_any"
   ],
   "note": "all of it; `passes` in SpecLax.v is the condition on a call, C93_exact for archives of at most 4 GiB, C93_any for larger ones"
  },
  {
   "property": "C94",
   "status": "proved",
   "theorems": [
    "C94_seen",
    "C94_clear",
    "C94_commentless"
   ],
   "note": "all of it; `others_clear` in SpecInterop.v is the condition on the end, `seen_as` in SpecRepack.v says what is seen of a call"
  },
  {
   "property": "C95",
   "status": "partial",
   "theorems": [
    "C95_agree_partial",
    "C95_refuted"
   ],
   "note": "False as it stands (C95_refuted): in a file whose comment holds another archive and one byte more, this crate finds the inner archive, which is not the one whose comment reaches to the end of the file; such files are written by this crate itself if it is given that comment. C95_agree_partial: it holds for all files whose last end signature belongs to the end record that reaches to the end of the file, in which a ZIP64 locator before it belongs to a ZIP64 end or there are no placeholders to be replaced, and whose directory has as many records as the end says."
  },
  {
   "property": "C96",
   "status": "proved",
   "theorems": [
    "C96_read",
    "C96_write"
   ],
   "note": "all of it; for compressed entries with the decoder as a function of the bytes that takes one answer of the source for each poll, see codec. Contents over any sequence of polls are C56 and C59"
  },
  {
   "property": "C97",
   "status": "proved",
   "theorems": [
    "C97_back",
    "C97_seen",
    "C97_engine"
   ],
   "note": "all of it, with the encoder as a record of functions and the contract engine_ok as a visible premise, which an encoder with a buffer is proved to meet for any codec (C97_engine). The condition on polls that failed is needed: an encoder may have taken data in before the sink failed, and the repeated write then gives an entry that fails its checksum (C97_needed)"
  },
  {
   "property": "C98",
   "status": "proved",
   "theorems": [
    "C98_polls",
    "C98_reads",
    "C98_round",
    "C98_decoder",
    "C98_model",
    "C98_bytewise"
   ],
   "note": "all of it, with the decoder as a record of functions and the contract decoder_ok as a visible premise. The decoder that EntryReader has built in meets it for any codec (C98_decoder) and polls the same (C98_model), so the claims on EntryReader are those on one such decoder; one that polls the source byte by byte meets it as well (C98_bytewise). Nothing is claimed after a poll that found the data malformed"
  },
  {
   "property": "C99",
   "status": "proved",
   "theorems": [
    "C99_taken",
    "C99_reported"
   ],
   "note": "all of it; the decoder is a record of functions with the contract decoder_ok as a visible premise (met by two decoders, C98_decoder and C98_bytewise). That the decoder takes from the source no more than its stream, which the contract asks for, is what the bufread decoders of async-compression do"
  }
 ]
}