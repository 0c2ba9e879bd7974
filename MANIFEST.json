{
 "claims": [
  {
   "property": "C01",
   "status": "proved",
   "theorems": [
    "C01_list_roundtrip"
   ],
   "note": "all ascending histories; in memory and at any place in a file"
  },
  {
   "property": "C02",
   "status": "partial",
   "theorems": [
    "C02_accepted_is_readable_refuted",
    "C02_accepted_is_readable_partial"
   ],
   "note": "the code violates the property: numbers in [63*2^24,2^30) are accepted and lost; exact extent proved for a first number"
  },
  {
   "property": "C03",
   "status": "proved",
   "theorems": [
    "C03_record_in_bounds"
   ],
   "note": "new and loaded lists, any history"
  },
  {
   "property": "C04",
   "status": "proved",
   "theorems": [
    "C04_reader_safe"
   ],
   "note": "any bytes, any offset"
  },
  {
   "property": "C05",
   "status": "proved",
   "theorems": [
    "C05_word_table_is_map",
    "C05_id_table_is_map",
    "C05_every_reachable_table",
    "C05_every_reachable_id_table",
    "C05_insert_into_reachable_table"
   ],
   "note": "message numbers below 63*2^24; growth of the slot array past 2^30 entries (C int overflow) is outside the model"
  },
  {
   "property": "C06",
   "status": "proved",
   "theorems": [
    "C06_insertion_terminates",
    "C06_loading_terminates"
   ],
   "note": "any hash function, any loaded entries"
  },
  {
   "property": "C07",
   "status": "proved",
   "theorems": [
    "C07_purge_word_table",
    "C07_purge_id_table"
   ],
   "note": "new numbers are the ranks among survivors"
  },
  {
   "property": "C08",
   "status": "partial",
   "theorems": [
    "C08_db_roundtrip_partial",
    "C08_db_roundtrip_refuted"
   ],
   "note": "round trip proved for every index and previous file contents when the uninitialised int left by int_list_reader_copy on an empty list is below n_msgs; refuted without that (load can abort)"
  },
  {
   "property": "C09",
   "status": "proved",
   "theorems": [
    "C09_writer_in_bounds"
   ],
   "note": "every store inside, pairwise disjoint"
  },
  {
   "property": "C10",
   "status": "partial",
   "theorems": [
    "C10_open_safe_refuted",
    "C10_open_safe_partial"
   ],
   "note": "the code violates the property: type table unchecked, offset+count wraps; what is checked is proved for all byte strings"
  },
  {
   "property": "C100",
   "status": "proved",
   "theorems": [
    "C100_minimal"
   ],
   "note": "Same conditions as C99."
  },
  {
   "property": "C101",
   "status": "partial",
   "theorems": [
    "C101_tables",
    "C101_many_refuted"
   ],
   "note": "Proved up to 256 tokens; the code violates the property beyond (C101_many_refuted)."
  },
  {
   "property": "C102",
   "status": "partial",
   "theorems": [
    "C102_outcome",
    "C102_default",
    "C102_circle_refuted",
    "C102_leftover_refuted"
   ],
   "note": "Full characterisation of the outcomes for well made descriptions. The code violates the property for circular tags and empty classes (refuted)."
  },
  {
   "property": "C103",
   "status": "partial",
   "theorems": [
    "C103_meaning",
    "C103_scanners",
    "C103_references",
    "C103_hash_refuted",
    "C103_abbreviations_refuted",
    "C103_self_refuted"
   ],
   "note": "Proved for descriptions whose names have no # and that use blocks inline. The code violates the property otherwise: C103_hash_refuted, C103_abbreviations_refuted, C103_self_refuted."
  },
  {
   "property": "C104",
   "status": "proved",
   "theorems": [
    "C104_attributes"
   ],
   "note": "For all descriptions that are accepted."
  },
  {
   "property": "C105",
   "status": "proved",
   "theorems": [
    "C105_separators",
    "C105_made"
   ],
   "note": "Loop of mbox.c on the generated tables; the text of fromcheck.nfa is a constant of the model (M_Files)."
  },
  {
   "property": "C106",
   "status": "proved",
   "theorems": [
    "C106_kinds",
    "C106_one_kind",
    "C106_made"
   ],
   "note": "Loop of dates.c on the generated tables; the text of datescan.nfa is a constant of the model (M_Files)."
  },
  {
   "property": "C107",
   "status": "proved",
   "theorems": [
    "C107_reads",
    "C107_safe",
    "C107_agrees",
    "C107_made"
   ],
   "note": "on the tables made from nvp.nfa; the text of the description is a constant of M_Files"
  },
  {
   "property": "C108",
   "status": "proved",
   "theorems": [
    "C108_expressions"
   ],
   "note": "arguments about text, message-ids and dates; sizes, flags and paths are C20, C18"
  },
  {
   "property": "C109",
   "status": "partial",
   "theorems": [
    "C109_days_partial",
    "C109_zones_partial",
    "C109_day_refuted"
   ],
   "note": "the code violates it: mails are dated at midnight and the search is for strictly later moments; what is found is proved exactly"
  },
  {
   "property": "C11",
   "status": "partial",
   "theorems": [
    "C11_crash_safe_refuted",
    "C08_db_roundtrip_partial"
   ],
   "note": "the code violates the property (in-place write); a completed write is covered by C08"
  },
  {
   "property": "C110",
   "status": "proved",
   "theorems": [
    "C110_reads",
    "C110_one_meaning",
    "C110_refuses"
   ],
   "note": "M_Parse against the grammar of parse.y stated as relations"
  },
  {
   "property": "C111",
   "status": "proved",
   "theorems": [
    "C111_scans",
    "C111_reads",
    "C111_refuses"
   ],
   "note": "M_Scan against the rules of scan.l with the semantics of flex, and the whole reader of descriptions"
  },
  {
   "property": "C112",
   "status": "partial",
   "theorems": [
    "C112_files_partial",
    "C112_files_refuted",
    "C112_kind"
   ],
   "note": "The code violates the property when a compressed file is used again after only plain ones (refuted for all such files); proved otherwise. Which names count as compressed is C112_kind. The decompression libraries are a parameter; tmpfile, open and mmap failing are simplified."
  },
  {
   "property": "C113",
   "status": "partial",
   "theorems": [
    "C113_damaged_refuted"
   ],
   "note": "The code violates the property for every compressed file in which a read fails."
  },
  {
   "property": "C114",
   "status": "partial",
   "theorems": [
    "C114_report_partial",
    "C114_report_refuted"
   ],
   "note": "The code violates the property exactly for size 0 and for sizes of 2^31 or more; proved for all others."
  },
  {
   "property": "C115",
   "status": "proved",
   "theorems": [
    "C115_everything"
   ],
   "note": "Sizes of files under the assumption that at every session the system told the length of the contents (not so for compressed files); p: and z: without messages on a server, as C16."
  },
  {
   "property": "C116",
   "status": "partial",
   "theorems": [
    "C116_dump_partial",
    "C116_dump_refuted"
   ],
   "note": "Proved whenever sizes, offsets and thread numbers are below 2^31. The code violates the property above that: printf is given unsigned numbers with %d, and the refuting theorem shows a mail of 3 000 000 000 bytes listed with a negative size."
  },
  {
   "property": "C117",
   "status": "partial",
   "theorems": [
    "C117_login",
    "C117_name",
    "C117_star_refuted",
    "C117_nul_refuted"
   ],
   "note": "Conversation and conditions proved for every server and handshake, for runs that return (C120 is about those that do not). The code's name test is proved to be what S_Login.bears says, and refuted as a test by the rules for certificates."
  },
  {
   "property": "C118",
   "status": "partial",
   "theorems": [
    "C118_offered_partial",
    "C118_clear_refuted",
    "C118_early_refuted"
   ],
   "note": "The code violates it: TLS is asked for first (proved), but after a refusal the password goes in the clear, and bytes received before the handshake are used after it (refuted by concrete servers)."
  },
  {
   "property": "C119",
   "status": "proved",
   "theorems": [
    "C119_plain",
    "C119_tls"
   ],
   "note": ""
  },
  {
   "property": "C12",
   "status": "proved",
   "theorems": [
    "C12_word_search"
   ],
   "note": "part key letter and plain word; words with operators or several parts are C16"
  },
  {
   "property": "C120",
   "status": "partial",
   "theorems": [
    "C120_silent_refuted"
   ],
   "note": "The code violates it; the refutation gives the server."
  },
  {
   "property": "C121",
   "status": "proved",
   "theorems": [
    "C121_write"
   ],
   "note": ""
  },
  {
   "property": "C122",
   "status": "proved",
   "theorems": [
    "C122_logout"
   ],
   "note": ""
  },
  {
   "property": "C123",
   "status": "proved",
   "theorems": [
    "C123_filled",
    "C123_added"
   ],
   "note": "for servers that keep to the protocol (S_Server, S_Deliver); mails from files only if the folder is there, see C124"
  },
  {
   "property": "C124",
   "status": "partial",
   "theorems": [
    "C124_refuted"
   ],
   "note": "the code violates it: proved that on every such server the mails are lost when the folder is missing"
  },
  {
   "property": "C125",
   "status": "proved",
   "theorems": [
    "C125_read",
    "C125_cut",
    "C125_safe"
   ],
   "note": "poll, read and SSL_read are arbitrary lists of results; time is not modelled: a timeout is one of poll's results"
  },
  {
   "property": "C126",
   "status": "proved",
   "theorems": [
    "C126_filled",
    "C126_added"
   ],
   "note": "Each result is still where the index says, its text can be sent as it is (bytes, a length an int can hold, and no backslash unless a control or 8-bit character or a quote is there too), and the folder exists or all results lie on the server."
  },
  {
   "property": "C127",
   "status": "partial",
   "theorems": [
    "C127_refuted",
    "C127_empty_refuted"
   ],
   "note": "The code violates it: a changed message makes mairix copy from the null pointer, and an unreadable mailbox adds an empty letter. Both are proved of every server that has the match folder."
  },
  {
   "property": "C128",
   "status": "proved",
   "theorems": [
    "C128_built",
    "C128_calls"
   ],
   "note": "malloc is taken to succeed."
  },
  {
   "property": "C129",
   "status": "proved",
   "theorems": [
    "C129_excerpts"
   ],
   "note": "Supposes that the mails shown can be parsed without fault (parses); strftime and fetching from a server are parameters."
  },
  {
   "property": "C13",
   "status": "proved",
   "theorems": [
    "C13_substring_exact",
    "C13_bad_length"
   ],
   "note": "one pattern against one word, all five matcher routines"
  },
  {
   "property": "C14",
   "status": "proved",
   "theorems": [
    "C14_approximate",
    "C14_specialised_agree"
   ],
   "note": ""
  },
  {
   "property": "C15",
   "status": "partial",
   "theorems": [
    "C15_anchored_refuted",
    "C15_anchored_partial",
    "C15_anchored_extent"
   ],
   "note": "the code violates the property for N>=1; exact extent of what it matches proved"
  },
  {
   "property": "C16",
   "status": "proved",
   "theorems": [
    "C16_expressions"
   ],
   "note": "arguments spelt as the manual documents; p: only alone and without IMAP messages (C18, C51), no trailing separator (C17), anchored approximate terms only with 0 errors (C15)"
  },
  {
   "property": "C17",
   "status": "partial",
   "theorems": [
    "C17_trailing_separator_refuted"
   ],
   "note": "the code violates the property"
  },
  {
   "property": "C18",
   "status": "partial",
   "theorems": [
    "C18_path_group_refuted"
   ],
   "note": "the code violates the property"
  },
  {
   "property": "C19",
   "status": "proved",
   "theorems": [
    "C19_only_live"
   ],
   "note": "any file and arguments"
  },
  {
   "property": "C20",
   "status": "proved",
   "theorems": [
    "C20_size",
    "C20_date",
    "C20_flags"
   ],
   "note": "z: stated for indexes without IMAP messages, whose size entry is never written; size values below 2^31"
  },
  {
   "property": "C21",
   "status": "proved",
   "theorems": [
    "C21_threads"
   ],
   "note": "find_threading as a whole: union of chains, flattening, numbering."
  },
  {
   "property": "C22",
   "status": "partial",
   "theorems": [
    "C22_threads_partial",
    "C22_connected_partial",
    "C22_threads_refuted",
    "C22_purge_refuted"
   ],
   "note": "The code violates the full statement: a purge keeps thread numbers, and -t then writes outside its table (C22_purge_refuted, through the modelled purge). Proved for an index written after threading, where the result is exactly the live messages connected to a match; for d: and z: arguments when no entry is dead."
  },
  {
   "property": "C23",
   "status": "partial",
   "theorems": [
    "C23_files_partial",
    "C23_size_refuted",
    "C23_fast",
    "C23_server",
    "C23_each_once",
    "C23_mailboxes"
   ],
   "note": "Files, server messages and mailboxes after a run, modification times included; the size part is violated by the code (C23_size_refuted: same mtime, new size)."
  },
  {
   "property": "C24",
   "status": "proved",
   "theorems": [
    "C24_entries"
   ],
   "note": "for every runnable index"
  },
  {
   "property": "C25",
   "status": "proved",
   "theorems": [
    "C25_sorted",
    "C25_lookup",
    "C25_mailbox_lookup"
   ],
   "note": ""
  },
  {
   "property": "C26",
   "status": "proved",
   "theorems": [
    "C26_mbox",
    "C26_mmdf"
   ],
   "note": "The separator-line recogniser is a parameter."
  },
  {
   "property": "C27",
   "status": "proved",
   "theorems": [
    "C27_prefix",
    "C27_boundary"
   ],
   "note": "Needs start, length and checksum of every message to be known."
  },
  {
   "property": "C28",
   "status": "partial",
   "theorems": [
    "C28_globs_partial",
    "C28_high_range_refuted",
    "C28_dash_after_range_refuted"
   ],
   "note": "Proved for patterns with ASCII ranges; the code violates it for ranges between non-ASCII characters, and a '-' after a range is not an ordinary '-' as the source says."
  },
  {
   "property": "C29",
   "status": "partial",
   "theorems": [
    "C29_glob_defined_refuted",
    "C29_glob_defined_partial"
   ],
   "note": "The code violates it: unterminated '[' and 31 or more single-character items. Defined for patterns of at most 30 characters without '['."
  },
  {
   "property": "C30",
   "status": "proved",
   "theorems": [
    "C30_colon_lists"
   ],
   "note": ""
  },
  {
   "property": "C31",
   "status": "proved",
   "theorems": [
    "C31_words",
    "C31_message"
   ],
   "note": "Lower-casing happens when a word enters a table (C05)."
  },
  {
   "property": "C32",
   "status": "proved",
   "theorems": [
    "C32_html"
   ],
   "note": "isalnum() is a parameter that must exclude < and >."
  },
  {
   "property": "C33",
   "status": "partial",
   "theorems": [
    "C33_flags_partial",
    "C33_flags_refuted"
   ],
   "note": "proved when some flag is set or the directory has no colon; the code violates the rest (refuted)"
  },
  {
   "property": "C34",
   "status": "partial",
   "theorems": [
    "C34_maildir",
    "C34_mh",
    "C34_mh_cleared",
    "C34_exactly_refuted",
    "C69_folder"
   ],
   "note": "names never collide and all MH names written are cleared; 'exactly those' is violated by the code (refuted: 007 is cleared too)"
  },
  {
   "property": "C35",
   "status": "partial",
   "theorems": [
    "C35_file_partial",
    "C35_mboxmsg_partial",
    "C35_refuted"
   ],
   "note": "proved except for messages of one byte, where the code violates it (refuted); messages fetched from IMAP always get one newline, so the claim fails for those not ending in one"
  },
  {
   "property": "C36",
   "status": "partial",
   "theorems": [
    "C36_exclusion_partial",
    "C36_race_refuted",
    "C36_signal_refuted"
   ],
   "note": "proved for schedules in which a reader of the lock file always finds it and signals do not hit waiting processes; the code violates the rest (refuted)"
  },
  {
   "property": "C37",
   "status": "proved",
   "theorems": [
    "C37_expand",
    "C37_expand_only"
   ],
   "note": "length computed = length written = specification; the int sum of lengths is unbounded in the model"
  },
  {
   "property": "C38",
   "status": "proved",
   "theorems": [
    "C38_decode",
    "C38_fits"
   ],
   "note": "isspace() is a parameter that agrees with the C locale on ASCII."
  },
  {
   "property": "C39",
   "status": "partial",
   "theorems": [
    "C39_decode",
    "C39_fits",
    "C39_overrun_refuted",
    "C39_outside_refuted"
   ],
   "note": "Every quoted-printable text decodes to what it encodes. The code violates the bounds part: an input ending in '=' is read beyond its end."
  },
  {
   "property": "C40",
   "status": "proved",
   "theorems": [
    "C40_parse",
    "C40_total"
   ],
   "note": "Exact characterisation: accepted headers are those made of fields (with mailbox From lines let pass) and an end; a folded line break counts as the last of the spaces after it. isspace() is a parameter that agrees with the C locale on ASCII."
  },
  {
   "property": "C41",
   "status": "proved",
   "theorems": [
    "C41_safe",
    "C41_reads",
    "C41_unchanged"
   ],
   "note": "for every C string as header value"
  },
  {
   "property": "C42",
   "status": "proved",
   "theorems": [
    "C42_packing",
    "C42_size_check_refuses_nothing"
   ],
   "note": "all non-negative ints"
  },
  {
   "property": "C43",
   "status": "proved",
   "theorems": [
    "C43_integrity_accepts",
    "C43_integrity_rejects",
    "C43_integrity_paths"
   ],
   "note": ""
  },
  {
   "property": "C44",
   "status": "proved",
   "theorems": [
    "C44_mfolder",
    "C44_mfolder_accepted"
   ],
   "note": "Same file means same device and inode; the code compares inodes only, so it also refuses some folders that are not indexed."
  },
  {
   "property": "C45",
   "status": "partial",
   "theorems": [
    "C45_date_order_partial",
    "C45_date_order_refuted"
   ],
   "note": "violated for dates 2^31 or more seconds apart"
  },
  {
   "property": "C46",
   "status": "proved",
   "theorems": [
    "C46_checksum",
    "C46_same_bytes"
   ],
   "note": "offsets below 2^31 and mappings below 2^31 bytes"
  },
  {
   "property": "C47",
   "status": "partial",
   "theorems": [
    "C47_period_partial",
    "C47_from_partial",
    "C47_until_partial",
    "C47_both_partial",
    "C47_relative_partial",
    "C47_search_partial",
    "C47_midnight_refuted",
    "C47_start_refuted",
    "C47_day_refuted",
    "C47_leap_refuted",
    "C47_century_refuted",
    "C47_order_refuted",
    "C47_future_refuted",
    "C47_relative_refuted"
   ],
   "note": "Proved for each of the four formats when the expression is one for which the code follows the manual. The code violates the rest: the first second of a range is excluded, a start given with an end begins at the end of its day, 31 and 29feb may give a date that does not exist, February of 2100 has 29 days, ranges may be reversed or in the future, and a relative date by itself denotes nothing."
  },
  {
   "property": "C48",
   "status": "proved",
   "theorems": [
    "C48_pieces",
    "C48_digest",
    "C48_function",
    "C48_checksum",
    "C48_long"
   ],
   "note": "Pieces shorter than 2^32 bytes each (the length argument is an unsigned int). C48_digest: the digest is that of RFC 1321. C48_long: a message of 2^32 bytes or more is cut to its length modulo 2^32."
  },
  {
   "property": "C49",
   "status": "partial",
   "theorems": [
    "C49_parts",
    "C49_order",
    "C49_reported",
    "C49_closing_refuted",
    "C49_ending_refuted",
    "C49_unreported_refuted",
    "C49_padding_refuted",
    "C49_told"
   ],
   "note": "Proved: a well-formed multipart body is split into exactly its parts, any body into disjoint ordered pieces between boundaries at line starts, and a missing last boundary is reported for bodies of whole lines. The code violates the rest: a last boundary with text behind it is accepted, so is any character behind a boundary at the very end, a missing boundary goes unreported when the last line mentions it without a newline, and blanks behind a boundary (RFC 2046) lose the part."
  },
  {
   "property": "C50",
   "status": "proved",
   "theorems": [
    "C50_directives"
   ],
   "note": "At the level of the value of the directive; the rc file scanner is not part of this theorem."
  },
  {
   "property": "C51",
   "status": "partial",
   "theorems": [
    "C51_path_search_with_imap_refuted"
   ],
   "note": "the code violates the property; without IMAP messages p: is covered by C16_expressions"
  },
  {
   "property": "C52",
   "status": "proved",
   "theorems": [
    "C52_folders"
   ],
   "note": "Directory nesting bounded by the fuel, for every bound; patterns restricted as in C28_globs_partial; an entry of the form /wild in the root directory is excluded."
  },
  {
   "property": "C53",
   "status": "partial",
   "theorems": [
    "C53_omit_refuted"
   ],
   "note": "The code violates it: an omitted directory is pruned with everything below it."
  },
  {
   "property": "C54",
   "status": "proved",
   "theorems": [
    "C54_maildir",
    "C54_mh"
   ],
   "note": ""
  },
  {
   "property": "C55",
   "status": "proved",
   "theorems": [
    "C55_purge"
   ],
   "note": "cull_dead_messages and cull_dead_mboxen, including the integrity check and the repacking of all seven tables."
  },
  {
   "property": "C56",
   "status": "proved",
   "theorems": [
    "C56_angled"
   ],
   "note": ""
  },
  {
   "property": "C57",
   "status": "proved",
   "theorems": [
    "C57_words",
    "C57_dates_and_flags",
    "C57_threads"
   ],
   "note": "Words, dates, flags and thread numbers after a run, for every index and every outside world."
  },
  {
   "property": "C58",
   "status": "partial",
   "theorems": [
    "C58_run",
    "C58_start",
    "C58_shrunk_refuted",
    "C58_dangling_refuted"
   ],
   "note": "Proved except that the index is updatable again only if no mailbox shrank; the code violates the rest (C58_shrunk_refuted, C58_dangling_refuted)."
  },
  {
   "property": "C59",
   "status": "proved",
   "theorems": [
    "C59_unchanged"
   ],
   "note": ""
  },
  {
   "property": "C60",
   "status": "proved",
   "theorems": [
    "C60_index_and_search"
   ],
   "note": "isalnum, message parser, separator recogniser, checksum and hash are parameters of the model"
  },
  {
   "property": "C61",
   "status": "partial",
   "theorems": [
    "C61_deterministic_refuted"
   ],
   "note": "The code violates it."
  },
  {
   "property": "C62",
   "status": "proved",
   "theorems": [
    "C62_mailboxes"
   ],
   "note": "Every mailbox, every previous index."
  },
  {
   "property": "C63",
   "status": "proved",
   "theorems": [
    "C63_rc_file"
   ],
   "note": "lines of at most 4092 bytes"
  },
  {
   "property": "C64",
   "status": "partial",
   "theorems": [
    "C64_settings_partial",
    "C64_maildir_refuted",
    "C64_folder"
   ],
   "note": "the code violates it for MAIRIX_MAILDIR_FOLDERS (misspelt name is read); proved for everything else"
  },
  {
   "property": "C65",
   "status": "proved",
   "theorems": [
    "C65_arguments",
    "C65_unknown"
   ],
   "note": "sscanf of the hash key is a parameter"
  },
  {
   "property": "C66",
   "status": "partial",
   "theorems": [
    "C66_any_rc_file_partial",
    "C66_folders_refuted",
    "C66_nul_refuted"
   ],
   "note": "the code violates it in exactly two ways: 'folders' without '=' after another folder line, and a line starting with NUL; every other file is covered"
  },
  {
   "property": "C67",
   "status": "partial",
   "theorems": [
    "C67_outside_kept",
    "C67_augment_refuted"
   ],
   "note": "proved without --augment; with it the code violates the property (refuted)"
  },
  {
   "property": "C68",
   "status": "partial",
   "theorems": [
    "C68_split_back_partial",
    "C68_refuted"
   ],
   "note": "proved when no line of a message begins with 'From '; otherwise the code violates it (refuted)"
  },
  {
   "property": "C69",
   "status": "partial",
   "theorems": [
    "C69_folder",
    "C69_whole_copy_refuted"
   ],
   "note": "full folder contents proved; copies lack the message's last byte, which the code's fwrite length causes (refuted for 'whole copy')"
  },
  {
   "property": "C70",
   "status": "proved",
   "theorems": [
    "C70_mbox",
    "C70_raw"
   ],
   "note": "the formats imap and excerpt: C126, C129"
  },
  {
   "property": "C71",
   "status": "partial",
   "theorems": [
    "C71_left_behind_partial"
   ],
   "note": "same conditions on the schedule as C36_exclusion_partial"
  },
  {
   "property": "C72",
   "status": "proved",
   "theorems": [
    "C72_alone"
   ],
   "note": ""
  },
  {
   "property": "C73",
   "status": "partial",
   "theorems": [
    "C73_accepted",
    "C73_refused",
    "C73_overflow_refuted"
   ],
   "note": "The accepted arguments are exactly the documented ones whose relative dates fit in an int of seconds; beyond that the C code overflows, which is undefined."
  },
  {
   "property": "C74",
   "status": "partial",
   "theorems": [
    "C74_decode_refuted",
    "C74_fits_refuted"
   ],
   "note": "The code violates it: line lengths are read from the newline characters, so the result is wrong and the result array is overrun."
  },
  {
   "property": "C75",
   "status": "proved",
   "theorems": [
    "C75_plain"
   ],
   "note": ""
  },
  {
   "property": "C76",
   "status": "partial",
   "theorems": [
    "C76_adjacent_refuted"
   ],
   "note": "the code violates it: the space between adjacent encoded words is kept"
  },
  {
   "property": "C77",
   "status": "proved",
   "theorems": [
    "C77_reads",
    "C77_some",
    "C77_type",
    "C77_word",
    "C77_param",
    "C77_pieces",
    "C77_safe"
   ],
   "note": "All lists of components in the grammar of nvp.nfa, with a NUL-free value; pieces are joined in the order they appear (their numbers are not looked at by the code)."
  },
  {
   "property": "C78",
   "status": "partial",
   "theorems": [
    "C78_blank_refuted",
    "C78_escape_refuted",
    "C78_empty_refuted"
   ],
   "note": "The code violates this: a blank before the equals sign becomes part of the name, an escaped quote drops the text before it, and an empty quoted string makes the whole header unreadable."
  },
  {
   "property": "C79",
   "status": "proved",
   "theorems": [
    "C79_headers"
   ],
   "note": "every parsed message, whatever its body"
  },
  {
   "property": "C80",
   "status": "proved",
   "theorems": [
    "C80_date"
   ],
   "note": "mktime is a parameter; if it returns 0 a later Date field counts, which the statement leaves open"
  },
  {
   "property": "C81",
   "status": "partial",
   "theorems": [
    "C81_comment_refuted",
    "C81_overflow_refuted"
   ],
   "note": "the code violates it: a comma in a comment makes the date -1, and atoi overflows on a long number"
  },
  {
   "property": "C82",
   "status": "proved",
   "theorems": [
    "C82_tree",
    "C82_name_refuted"
   ],
   "note": "whole messages; a file name given only in the type has to be spelled name in small letters, the code misses Name (refuted); uuencoded bodies are left out, see C74"
  },
  {
   "property": "C83",
   "status": "proved",
   "theorems": [
    "C83_ends"
   ],
   "note": "termination for any bytes; the out-of-bounds reads that remain possible are those of C39 and C74, the undefined date that of C81"
  },
  {
   "property": "C84",
   "status": "proved",
   "theorems": [
    "C84_runs",
    "C84_opens"
   ],
   "note": "fit: folders give distinct C-string paths, mailboxes can be looked at, file below 2 GiB, no mailbox shrunk (C58) and the uninitialised index of C08 is harmless"
  },
  {
   "property": "C85",
   "status": "partial",
   "theorems": [
    "C85_faithful",
    "C85_search",
    "C85_undisturbed_refuted"
   ],
   "note": "proved under honest stamps and undisturbed mailboxes; without the latter the code violates it (C85_undisturbed_refuted)"
  },
  {
   "property": "C86",
   "status": "proved",
   "theorems": [
    "C86_files",
    "C86_server"
   ],
   "note": "under the conditions of C85; files for sessions without -F"
  },
  {
   "property": "C87",
   "status": "partial",
   "theorems": [
    "C87_separator",
    "C87_short_host_refuted"
   ],
   "note": "The automaton is proved to accept exactly the grammar of S_From, for all lines; C87_short_host_refuted: an address whose host is one character (root@h) is rejected, so that message is missed."
  },
  {
   "property": "C88",
   "status": "proved",
   "theorems": [
    "C88_strings",
    "C88_world",
    "C88_words"
   ],
   "note": "locale agrees with ASCII on white space; legible: header values have readable encoded words"
  },
  {
   "property": "C89",
   "status": "proved",
   "theorems": [
    "C89_files",
    "C89_server",
    "C89_entries"
   ],
   "note": "for MIME messages with legible headers, honest and undisturbed folders (C85), and texts that do not break the parser"
  },
  {
   "property": "C90",
   "status": "partial",
   "theorems": [
    "C90_pieces",
    "C90_line",
    "C90_escape_refuted",
    "C90_text_refuted"
   ],
   "note": "Proved for lines without backslash escapes and with no brace in free text; the code misreads these two kinds of lines (both refuted)."
  },
  {
   "property": "C91",
   "status": "partial",
   "theorems": [
    "C91_line",
    "C91_command",
    "C91_select",
    "C91_number_refuted",
    "C91_short_refuted"
   ],
   "note": "Proved for reading lines, commands and select for numbers below 2^31; the code overflows an int for larger ones and follows a null pointer when a line has a single word (both refuted)."
  },
  {
   "property": "C92",
   "status": "partial",
   "theorems": [
    "C92_sent",
    "C92_fits",
    "C92_backslash_refuted"
   ],
   "note": "Length proved for all arguments; the reading for strings without a backslash, or sent as literals. The code does not escape backslashes (refuted)."
  },
  {
   "property": "C93",
   "status": "partial",
   "theorems": [
    "C93_run",
    "C93_missing_refuted",
    "C93_gone_refuted"
   ],
   "note": "Proved for existing folders and messages; the code skips a folder after a missing one and uses an uninitialised variable for a vanished message (both refuted)."
  },
  {
   "property": "C94",
   "status": "proved",
   "theorems": [
    "C94_spared"
   ],
   "note": "For any server that does only what it is asked, whatever it answers. Folder names without backslash (see C92)."
  },
  {
   "property": "C95",
   "status": "partial",
   "theorems": [
    "C95_settled",
    "C95_appended",
    "C95_mails",
    "C95_search",
    "C95_delivery_refuted"
   ],
   "note": "Proved for mailboxes that change by whole mails. The code violates the property if a session runs during a delivery: C95_delivery_refuted."
  },
  {
   "property": "C96",
   "status": "partial",
   "theorems": [
    "C96_class",
    "C96_exact",
    "C96_negation_refuted"
   ],
   "note": "Proved for classes where nothing is misread, with the exact set of errors; the code violates the property for [^_] (C96_negation_refuted)."
  },
  {
   "property": "C97",
   "status": "partial",
   "theorems": [
    "C97_tokens",
    "C97_empty_refuted"
   ],
   "note": "Proved for every description the generator accepts. Classes without characters make the code read out of bounds (C97_empty_refuted)."
  },
  {
   "property": "C98",
   "status": "proved",
   "theorems": [
    "C98_scanner"
   ],
   "note": "For descriptions the modelled generator accepts (result Ok), classes read as written (C96), and tables with room."
  },
  {
   "property": "C99",
   "status": "proved",
   "theorems": [
    "C99_compressed"
   ],
   "note": "Any sorting procedure that sorts; same conditions as C98."
  }
 ]
}