{"id": "C01", "title": "A stored list of message numbers reads back exactly", "statement": "For every ascending sequence of message numbers recorded for a word (first number and every gap below 63*2^24), reading the recorded list back, both from memory and from the database file where it is followed by its end marker, yields exactly the distinct numbers that were recorded, in order.", "quantifier": "all non-decreasing lists of message numbers with first element and gaps < 63*2^24, all bytes that may follow the list in the file", "why_tests_cant": "the encoding switches width at 127/128 and 16383/16384 and is delta based; only a proof covers all combinations of widths and lengths", "anchors": ["tok.c:insert_value", "tok.c:insert_index_on_encoding", "reader.c:int_list_reader_read", "writer.c:write_toktable"]}
{"id": "C02", "title": "Every message number the indexer accepts can be read back", "statement": "Any message number the indexer accepts without aborting (its own check admits leading byte values up to 63) is found again when the list is read. (The unchanged code violates this for gaps in [63*2^24, 64*2^24): the first byte becomes 0xff, which readers take as end of list.)", "quantifier": "all message-number gaps accepted by the indexer's own assertion", "why_tests_cant": "needs databases with more than a billion messages; no test can build one", "anchors": ["tok.c:insert_value", "reader.c:int_list_reader_read"]}
{"id": "C03", "title": "Recording message numbers never overruns the list buffer", "statement": "Whatever sequence of message numbers is recorded for a word, starting from a new word or from one loaded from an existing database, every byte written to the word's list lies inside the storage allocated for it.", "quantifier": "all insertion histories, all loaded lists", "why_tests_cant": "an off-by-one in the growth rule corrupts the heap only at particular sizes", "anchors": ["tok.c:check_and_enlarge_encoding", "tok.c:insert_index_on_encoding", "reader.c:int_list_reader_copy"]}
{"id": "C04", "title": "Reading a message-number list is memory safe on any file contents", "statement": "Whatever the bytes of the database file and whatever start offset inside it is used, reading a message-number list and reading a word's text terminate and touch no byte at or beyond the end of the file.", "quantifier": "all byte strings, all start offsets", "why_tests_cant": "adversarial/corrupt files form an infinite input space", "anchors": ["reader.c:int_list_reader_read", "reader.c:get_db_token", "reader.c:int_list_reader_copy"]}
{"id": "C05", "title": "The word tables behave like a map from word to set of messages", "statement": "After any history of recording (word, message) pairs with non-decreasing message numbers, and for any hash function and key, each word's table entry lists exactly the messages it was recorded for (words compared case-insensitively), no word has two entries, and the entry count equals the number of distinct words.", "quantifier": "all finite histories of (message, word) insertions, all hash functions and keys", "why_tests_cant": "collisions, probing and growth interact; tests only see a handful of hash values", "anchors": ["tok.c:add_token_in_file", "tok.c:enlarge_toktable", "hash.c:hashfn"]}
{"id": "C06", "title": "Word-table insertion always finds a slot", "statement": "Every insertion into a word table terminates: the probe always meets either the word or a free slot, for tables built from scratch, enlarged, loaded from a database or compacted by a purge.", "quantifier": "all reachable tables and all words", "why_tests_cant": "a full table loops forever; the load limits of the three construction paths must all be right", "anchors": ["tok.c:add_token_in_file", "tok.c:enlarge_toktable", "db.c:import_toktable", "db.c:recode_toktable"]}
{"id": "C07", "title": "Purging keeps exactly the surviving messages of every word", "statement": "After a purge, every word's list is exactly the renumbered list of its surviving messages, words left with no message disappear, no other word changes, and every remaining word can still be found by later insertions.", "quantifier": "all word tables, all sets of dead messages", "why_tests_cant": "deletion from an open-addressing table with repeated gap closing is history dependent", "anchors": ["db.c:recode_encoding", "db.c:recode_toktable", "db.c:recode_toktable2", "db.c:cull_dead_messages"]}
{"id": "C08", "title": "A written database reads back as the same index", "statement": "Opening the file produced by writing an index yields the same messages (kind, flags, path or mailbox position, mtime, size, date, thread), the same mailboxes, the same hash key, and for each of the seven word tables the same words with the same message lists.", "quantifier": "all in-memory databases within the 32-bit size limits, all previous contents of the file", "why_tests_cant": "the layout is computed in one pass and written in another; every combination of table sizes and alignments must agree", "anchors": ["writer.c:write_database", "writer.c:compute_mapping", "reader.c:open_db"]}
{"id": "C09", "title": "The database writer stays inside the file it sized", "statement": "The number of bytes written equals the computed file length, every word and byte written lies inside the file, and no two different table entries share a byte.", "quantifier": "all in-memory databases", "why_tests_cant": "depends on all table sizes at once", "anchors": ["writer.c:char_length", "writer.c:compute_mapping", "writer.c:write_database", "writer.c:create_rw_mapping"]}
{"id": "C10", "title": "Opening an arbitrary file as a database is safe", "statement": "Opening any file either reports a problem or yields an index all of whose fixed tables lie inside the file. (The unchanged code violates this: the message-type table is never checked, and offset+count can wrap modulo 2^32.)", "quantifier": "all byte strings", "why_tests_cant": "crafted headers are not in any test suite", "anchors": ["reader.c:open_db", "reader.c:read_toktable_db", "reader.c:read_toktable2_db"]}
{"id": "C11", "title": "An interrupted index run leaves a usable database", "statement": "If indexing is interrupted at any point, the file holds either the complete previous database or the complete new one. (The unchanged code writes in place and violates this.)", "quantifier": "all crash points during the write, all pairs of old and new databases", "why_tests_cant": "needs a crash at every byte", "anchors": ["writer.c:write_database", "writer.c:create_rw_mapping"]}
{"id": "C12", "title": "Word search finds exactly the messages containing the word", "statement": "Searching an index for a plain word in a message part returns exactly the live messages in which that word (case-insensitively) was recorded for that part.", "quantifier": "all indexing histories, all words", "why_tests_cant": "quantifies over every history and every word", "anchors": ["search.c:match_string_in_table", "search.c:mark_hits_in_table", "tok.c:add_token_in_file"]}
{"id": "C13", "title": "substring= search is exact substring containment", "statement": "With no error count, the pattern `s=` matches a word iff s occurs in the word as a contiguous substring, for every s of 1 to 31 bytes.", "quantifier": "all patterns of length 1..31, all words", "why_tests_cant": "bit-parallel automaton: correctness depends on every alignment", "anchors": ["search.c:build_match_vector", "search.c:substring_match_0"]}
{"id": "C14", "title": "substring=N search is approximate matching with at most N edits", "statement": "`s=N` matches a word iff some contiguous part of the word is within N single-letter insertions, deletions or substitutions of s; the specialised matchers for N=1,2,3 agree with the general one.", "quantifier": "all patterns of length 1..31, all N, all non-empty words", "why_tests_cant": "edit distance quantifies over all alignments", "anchors": ["search.c:substring_match_1", "search.c:substring_match_2", "search.c:substring_match_3", "search.c:substring_match_general"]}
{"id": "C15", "title": "^substring= matches at the beginning of the word only", "statement": "`^s=` matches a word iff the word begins with s, and `^s=N` iff some prefix of the word is within N edits of s. (The unchanged code violates the second half: with N>=1 the anchor is not enforced.)", "quantifier": "all patterns, all N, all words", "why_tests_cant": "needs the combination of anchor and errors at every position", "anchors": ["search.c:substring_match_0", "search.c:substring_match_1", "search.c:substring_match_general"]}
{"id": "C16", "title": "Search expressions have the documented precedence", "statement": "The messages returned are those satisfying every argument; an argument is satisfied when one of its '/'-separated alternatives is; an alternative when all of its ','-separated terms are; a term beginning with ~ when the rest does not match; key letters select the message parts searched, any of which may match.", "quantifier": "all argument lists, all databases", "why_tests_cant": "grammar-level quantification; interaction of reset/accumulate vectors", "anchors": ["search.c:do_search"]}
{"id": "C17", "title": "A separator at the end of an argument adds no matches", "statement": "Appending a trailing '/' to an argument does not change which messages match. (The unchanged code violates this: such an argument matches every message.)", "quantifier": "all arguments", "why_tests_cant": "only visible on inputs nobody tests", "anchors": ["search.c:do_search"]}
{"id": "C18", "title": "Grouping path search with other keys is a disjunction", "statement": "`kp:word` for another key k matches a message if either part matches. (The unchanged code violates this: the path result overwrites the others.)", "quantifier": "all databases, words and key groups", "why_tests_cant": "key-letter combinations", "anchors": ["search.c:match_substring_in_paths", "search.c:do_search"]}
{"id": "C19", "title": "Dead messages are never returned and the exit status reports emptiness", "statement": "A search never returns a message whose entry is dead, returns each message at most once in index order, and exits with status 1 exactly when nothing was returned.", "quantifier": "all databases and expressions, with and without thread expansion", "why_tests_cant": "invariant over all databases", "anchors": ["search.c:do_search"]}
{"id": "C20", "title": "Size, date and flag conditions select the documented messages", "statement": "z:, d: and F: terms select exactly the messages whose size or date lies in the given open interval (end points in either order) and whose flags satisfy every positive and negative requirement.", "quantifier": "all databases, all interval end points, all flag strings", "why_tests_cant": "signed/unsigned comparisons and letter order interact", "anchors": ["search.c:find_size_matches_in_table", "search.c:find_date_matches_in_table", "search.c:find_flag_matches_in_table", "search.c:parse_size_range"]}
{"id": "C21", "title": "Threads are the connected components of shared message-ids", "statement": "After an indexing run that found new mail, two messages carry the same thread number iff they are linked by a chain of messages in which neighbours mention a common message-id, and thread numbers are contiguous from zero.", "quantifier": "all sets of messages and message-id lists", "why_tests_cant": "union-find with arbitrary merge orders", "anchors": ["db.c:find_threading", "db.c:find_base"]}
{"id": "C22", "title": "-t returns whole threads and stays in bounds", "statement": "With thread expansion the result is exactly the live messages sharing a thread number with a matched message. (Violated after a purge: thread numbers are not renumbered and may exceed the size of the table that is indexed with them.)", "quantifier": "all databases reachable by indexing and purging", "why_tests_cant": "needs particular histories of purges", "anchors": ["search.c:do_search", "db.c:cull_dead_messages", "db.c:find_threading"]}
{"id": "C23", "title": "An indexing run makes the index agree with the folders", "statement": "After an indexing run the live one-message-per-file entries are exactly the files found in the folders, each recorded with its present mtime and size (or assumed unchanged in fast mode).", "quantifier": "all previous databases with distinct paths, all folder contents", "why_tests_cant": "history dependent: every combination of added, removed, changed, reappearing files", "anchors": ["db.c:update_database", "db.c:lookup_msgpath", "db.c:add_msg_path"]}
{"id": "C24", "title": "Indexing never renumbers or revives entries", "statement": "An indexing run without purge keeps the number of every existing entry, never turns a dead entry live, touches no unaffected entry, and appends new entries after all old ones.", "quantifier": "all databases, all folder contents", "why_tests_cant": "relational property over all states", "anchors": ["db.c:update_database", "mbox.c:build_mbox_lists"]}
{"id": "C25", "title": "Path lookup is correct", "statement": "Looking a path up in the sorted list of files found on disc finds it iff it is present, and the indexer compares each database entry with the right file.", "quantifier": "all sorted path lists, all paths", "why_tests_cant": "bisection boundary cases at every size", "anchors": ["db.c:lookup_msgpath"]}
{"id": "C26", "title": "Splitting an mbox yields ordered, disjoint messages inside the file", "statement": "The messages found in an mbox file lie inside it, do not overlap, are in file order, start just after a separator line, and every byte from the first separator on belongs to a message or a separator line.", "quantifier": "all file contents, all starting points, any separator-line recogniser", "why_tests_cant": "arbitrary byte strings", "anchors": ["mbox.c:build_new_message_list", "mbox.c:find_next_from", "mbox.c:find_next_mmdfsep"]}
{"id": "C27", "title": "Incremental mbox scanning keeps exactly the unchanged leading messages", "statement": "When an mbox changed on disc, the number of leading messages kept equals the length of the longest unchanged prefix of messages, whenever damage to one message implies damage to all later ones.", "quantifier": "all mailboxes and contents", "why_tests_cant": "bisection over all sizes", "anchors": ["mbox.c:find_number_intact", "mbox.c:message_is_intact"]}
{"id": "C28", "title": "Folder wildcards mean what the manual says", "statement": "A pattern with `*`, `**`, `?`, `[...]` and ordinary characters matches a name iff the name can be split accordingly, `*` not crossing '/', `**` crossing it.", "quantifier": "all patterns with at most 30 single-character atoms, all names", "why_tests_cant": "bit-parallel automaton over all inputs", "anchors": ["glob.c:make_globber", "glob.c:parse_charclass", "glob.c:is_glob_match"]}
{"id": "C29", "title": "Wildcard compilation is well defined for every pattern", "statement": "Compiling any pattern string reads only the pattern and performs only defined shifts. (The unchanged code violates this for patterns with an unterminated '[' and for patterns with 31 or more atoms.)", "quantifier": "all pattern strings", "why_tests_cant": "undefined behaviour is not observable by tests", "anchors": ["glob.c:parse_charclass", "glob.c:make_globber"]}
{"id": "C30", "title": "Colon-separated folder lists split and join faithfully", "statement": "Writing folder names separated by ':' with every ':' inside a name escaped as '\\:' and splitting the result returns the same names, provided only the last name may end in a backslash and the last name is not empty (unless it is the only one).", "quantifier": "all lists of names", "why_tests_cant": "escape handling for arbitrary strings", "anchors": ["glob.c:split_on_colons", "glob.c:copy_folder_name", "mairix.c:add_folders"]}
{"id": "C31", "title": "Words are the maximal runs of word characters", "statement": "The words recorded from a text are exactly its maximal runs of word characters, in order, lower-cased; for address headers the second scan uses the extended character set.", "quantifier": "all texts, all character classifications", "why_tests_cant": "arbitrary text", "anchors": ["db.c:tokenise_string", "db.c:char_valid_p"]}
{"id": "C32", "title": "HTML tags are not indexed", "statement": "For text/html the words recorded are those of the text outside <...>, where a tag separates words.", "quantifier": "all texts", "why_tests_cant": "arbitrary text", "anchors": ["db.c:tokenise_html_string"]}
{"id": "C33", "title": "Flags survive a round trip through maildir file names", "statement": "The seen, replied and flagged states written in the name of a search-result file are exactly those recovered when that file is indexed, for every combination and output directory.", "quantifier": "all flag combinations, message numbers and directories", "why_tests_cant": "arbitrary directory names", "anchors": ["search.c:mk_maildir_path", "db.c:scan_maildir_flags"]}
{"id": "C34", "title": "Search results never collide in the match folder", "statement": "Within one search two different results are never written to the same file name, and MH result names are exactly those the next search clears.", "quantifier": "all result sets", "why_tests_cant": "arbitrary result sets", "anchors": ["search.c:mk_maildir_path", "search.c:mk_mh_path", "dirscan.c:valid_mh_filename_p", "search.c:clear_mh_folder"]}
{"id": "C35", "title": "mbox results are separated by a blank line", "statement": "Each message appended to an mbox match folder is followed by an empty line. (The unchanged code violates this for one-byte messages.)", "quantifier": "all message contents", "why_tests_cant": "boundary lengths", "anchors": ["search.c:mbox_terminate"]}
{"id": "C36", "title": "The lock admits at most one process", "statement": "Under every interleaving of processes that start without --unlock, at most one process at a time is past the lock. (The unchanged code violates this: a process whose link attempt fails continues unlocked if the holder releases at the wrong moment.)", "quantifier": "all schedules of any number of processes", "why_tests_cant": "needs specific interleavings", "anchors": ["dotlock.c:lock_database", "dotlock.c:unlock_database"]}
{"id": "C37", "title": "A string expansion never overruns its buffer", "statement": "Expanding ~ and environment variables writes exactly the number of bytes computed beforehand plus a terminator, and produces the text with each reference replaced.", "quantifier": "all strings, environments and home directories", "why_tests_cant": "two copies of the same scanner must agree on every input", "anchors": ["expandstr.c:compute_length", "expandstr.c:do_expand"]}
{"id": "C38", "title": "Base64 bodies decode to the original bytes within their buffer", "statement": "Decoding the base64 encoding of any byte string, with any line breaks inserted, returns it; for any input the output fits the buffer allocated for it.", "quantifier": "all byte strings", "why_tests_cant": "padding and line-break cases at all lengths", "anchors": ["rfc822.c:unencode_data"]}
{"id": "C39", "title": "Quoted-printable bodies decode to the original bytes", "statement": "Decoding a quoted-printable encoding with soft line breaks returns the original text. (On malformed input the unchanged code reads past the end of its input.)", "quantifier": "all byte strings and line-break placements", "why_tests_cant": "arbitrary content", "anchors": ["rfc822.c:unencode_data", "rfc822.c:looking_at_ws_then_newline"]}
{"id": "C40", "title": "Header parsing unfolds continuation lines", "statement": "The header lines obtained from a message are the unfolded lines of its header block, the body starts right after the first blank line, and messages with malformed headers are rejected.", "quantifier": "all messages", "why_tests_cant": "arbitrary header blocks", "anchors": ["rfc822.c:split_and_splice_header", "rfc822.c:splice_header_lines", "rfc822.c:audit_header"]}
{"id": "C41", "title": "Decoding encoded words in headers never writes outside the header", "statement": "Decoding RFC 2047 words in place never lets the write position pass the read position and leaves text without encoded words unchanged.", "quantifier": "all header values", "why_tests_cant": "adversarial header values", "anchors": ["rfc822.c:decode_header_value"]}
{"id": "C42", "title": "Mailbox and message numbers pack losslessly", "statement": "Every mailbox number and message number is recovered exactly from its packed form, so the size check never has to refuse an index.", "quantifier": "all pairs of non-negative ints, at any place in the file", "why_tests_cant": "four billion by four billion pairs; an earlier packing had a limit at 65536", "anchors": ["mbox.c:encode_mbox_indices", "mbox.c:decode_mbox_indices", "mbox.c:verify_mbox_size_constraints"]}
{"id": "C43", "title": "The integrity check accepts every index the program builds", "statement": "Integrity checks never stop the program on a database produced by indexing, and reject lists naming messages that do not exist.", "quantifier": "all reachable databases", "why_tests_cant": "all histories", "anchors": ["db.c:check_database_integrity", "db.c:check_toktable_enc_integrity"]}
{"id": "C44", "title": "Search output is never directed at an indexed folder", "statement": "When the match folder is one of the folders being indexed, under the same path or as the same file reached by another path, the program refuses to search (except for raw, excerpt and IMAP output).", "quantifier": "all folder configurations", "why_tests_cant": "arbitrary folder trees", "anchors": ["mairix.c:member_of", "mairix.c:main"]}
{"id": "C45", "title": "Date sorting orders results by date", "statement": "With sorting requested, results are listed by non-decreasing date. (The unchanged comparison subtracts and truncates, which is not an order for dates more than 2^31 apart.)", "quantifier": "all date tables", "why_tests_cant": "needs extreme dates", "anchors": ["search.c:db_date_cmp"]}
{"id": "C46", "title": "Mailbox matches are only output when their checksum is right", "statement": "A message copied out of an mbox is exactly the bytes indexed: it is output only when its checksum equals the recorded one, and nothing outside the file is read.", "quantifier": "all mailboxes, all recorded positions", "why_tests_cant": "arbitrary modification of files after indexing", "anchors": ["search.c:get_validated_mbox_msg", "search.c:try_copy_to_path", "search.c:append_mboxmsg_to_mbox"]}
{"id": "C47", "title": "Date ranges are well formed", "statement": "A d: expression with a given start and end denotes the documented interval: 2-digit years, month lengths, most recent occurrence.", "quantifier": "all date strings and current dates", "why_tests_cant": "calendar boundary cases", "anchors": ["dates.c:scan_date_string", "dates.c:scan_date_expr"]}
{"id": "C48", "title": "Message checksums do not depend on how the data is chunked", "statement": "The checksum of a message is the same whether its bytes are supplied at once or in any pieces.", "quantifier": "all byte strings, all chunkings", "why_tests_cant": "block-boundary cases", "anchors": ["md5.c:MD5Update", "md5.c:MD5Final"]}
{"id": "C49", "title": "Multipart bodies are split at whole-line boundaries only", "statement": "Attachments of a multipart message are disjoint, ordered pieces of the body between whole-line boundaries, and a missing final boundary is reported.", "quantifier": "all bodies and boundary strings", "why_tests_cant": "arbitrary content", "anchors": ["rfc822.c:do_multipart"]}
{"id": "C50", "title": "Repeated folder directives accumulate", "statement": "Giving a folder directive several times is the same as one directive with the lists joined by ':'.", "quantifier": "all sequences of directives", "why_tests_cant": "arbitrary sequences", "anchors": ["mairix.c:add_folders", "mairix.c:parse_rc_file"]}
{"id": "C51", "title": "Path searches work whatever kinds of folder are indexed", "statement": "A p: search on an index that also holds IMAP messages returns the matching messages and ends normally. (The unchanged code violates this: it stops at an assertion.)", "quantifier": "all databases, all path expressions", "why_tests_cant": "depends on the mix of folder kinds in the index", "anchors": ["search.c:match_substring_in_paths"]}
{"id": "C52", "title": "A folder entry selects exactly the folders the manual describes", "statement": "A plain, wildcard or '...' entry selects exactly the existing folders of its kind that it names, walking the tree below it for '...', leaving out omitted entries and, below a maildir, its new, cur and tmp; raising the depth bound never changes a finished answer.", "quantifier": "all file systems, folder entries and omit lists", "why_tests_cant": "arbitrary directory trees", "anchors": ["mbox.c:handle_one_path", "mbox.c:append_deep", "mbox.c:append_shallow", "mbox.c:handle_wild", "dirscan.c:filter_is_maildir", "dirscan.c:filter_is_mh"]}
{"id": "C53", "title": "omit removes only the folders its pattern matches", "statement": "An omit pattern with '*' removes only folders whose path matches it; folders further down the tree, whose path does not match since '*' does not cross '/', stay indexed, as the manual says of 'bulk/spam*'. (The unchanged code violates this.)", "quantifier": "all file systems and omit patterns", "why_tests_cant": "arbitrary directory trees", "anchors": ["mbox.c:append_deep", "mairixrc.5"]}
{"id": "C54", "title": "Message files of a folder", "statement": "The messages found in a maildir folder are exactly the entries of its new and cur directories; those of an MH folder are exactly its entries whose names are a number, optionally followed by '.'.", "quantifier": "all file systems", "why_tests_cant": "arbitrary directories", "anchors": ["dirscan.c:get_maildir_message_paths", "dirscan.c:get_mh_message_paths", "dirscan.c:valid_mh_filename_p"]}
{"id": "C55", "title": "A purge keeps exactly the live messages", "statement": "Purging removes exactly the dead entries: the live messages are numbered consecutively in their old order with all their data and the same mailbox, every word lists exactly its live messages under their new numbers, words left without a message disappear, and mailboxes without a path disappear.", "quantifier": "all databases reachable by indexing, purging, writing and loading", "why_tests_cant": "every combination of dead messages, mailboxes and word lists", "anchors": ["db.c:cull_dead_messages", "db.c:recode_toktable", "mbox.c:cull_dead_mboxen"]}
{"id": "C56", "title": "Message ids are the terms in angle brackets", "statement": "The message ids recorded from Message-ID, In-Reply-To and References headers are exactly the terms between a '<' and the next '>', taken from left to right.", "quantifier": "all header values", "why_tests_cant": "arbitrary header values", "anchors": ["db.c:add_angled_terms"]}
{"id": "C57", "title": "Words recorded by an indexing run", "statement": "After an indexing run the words and message-ids recorded for old entries are unchanged, and those of each new entry are exactly the lower-cased words and ids of the message, part by part; thread numbers then say which messages are connected. Its date is that of the message; its flags are those in the file name, or in the headers for mailboxes.", "quantifier": "all indexes that can be updated, all folder contents, all message texts", "why_tests_cant": "ranges over all histories and all texts", "anchors": ["db.c:update_database", "db.c:scan_new_messages", "db.c:tokenise_message", "mbox.c:add_mbox_messages"]}
{"id": "C58", "title": "An indexing run succeeds and leaves a usable index", "statement": "Given a good index and folders that can be read, a run neither fails nor touches memory wrongly, and the index it leaves can be written, searched, purged and updated again. (Violated when a mailbox has lost its last messages: its message count is not reduced, and a later run reads uninitialised memory; and when a listed mailbox is a dangling symbolic link and links are followed.)", "quantifier": "all good indexes, all folder and mailbox contents", "why_tests_cant": "needs particular sequences of runs", "anchors": ["db.c:update_database", "mbox.c:build_mbox_lists", "mbox.c:add_mbox_messages", "rfc822.c:create_ro_mapping"]}
{"id": "C59", "title": "No change reported means no change", "statement": "When a run reports that nothing changed, so that the index file is not rewritten, no entry, no word and no place of a message in a mailbox differs from before.", "quantifier": "all indexes and folders", "why_tests_cant": "relational property over all states", "anchors": ["db.c:update_database", "mairix.c:main"]}
{"id": "C60", "title": "From folders to search results", "statement": "Indexing folders into an empty index, writing it, opening it and searching for a word in a message part returns exactly the messages in the folders that contain that word, ignoring case, in that part.", "quantifier": "all folder contents, message texts and words", "why_tests_cant": "composition of scanning, tokenising, hashing, encoding, file format and search", "anchors": ["mairix.c:main", "db.c:update_database", "writer.c:write_database", "search.c:do_search"]}
{"id": "C61", "title": "The index depends on the mail only", "statement": "Two runs over the same mail produce the same entries. (Violated: a mailbox message that cannot be parsed is entered with whatever date and flags were in memory.)", "quantifier": "all folder contents and prior memory contents", "why_tests_cant": "depends on uninitialised memory", "anchors": ["mbox.c:add_mbox_messages"]}
{"id": "C62", "title": "What a run makes of each mailbox", "statement": "A mailbox whose modification time and size are those recorded is left alone. Otherwise the unchanged messages at its beginning keep their entries, all later entries die, and the text that follows is cut at the separators and entered message by message with start, length and checksum; a message containing separator lines is put together from up to 100 pieces.", "quantifier": "all indexes, mailbox contents and parsers", "why_tests_cant": "incremental scanning over every possible previous state and new text", "anchors": ["mbox.c:build_mbox_lists", "mbox.c:add_mbox_messages", "mbox.c:rescan_mbox"]}
{"id": "C63", "title": "An rc file means what its lines say", "statement": "For every rc file made of documented lines (keywords in any case, leading blanks, comments, blank and unknown lines, the last newline possibly missing), reading it succeeds; folder options given several times add up joined by colons, of other options the last one counts, flags are on exactly when named, the last recognised mformat is the output format, and every value is the text after the keyword with ~ and variables expanded.", "quantifier": "all rc files of well-formed lines, all environments", "why_tests_cant": "every sequence of lines and every environment must be covered", "anchors": ["mairix.c:parse_rc_file", "mairix.c:add_folders", "mairix.c:copy_value", "mairix.c:parse_output_folder"]}
{"id": "C64", "title": "Command line overrides environment overrides rc file", "statement": "The folder base, folders, result folder, database, output format, integrity checks, symlink following, order and the work to be done are those given by the options, otherwise by the documented environment variables, otherwise by the rc file; the result folder is taken relative to the base unless it starts with / or ./.", "quantifier": "all option lists, environments, rc files and search words", "why_tests_cant": "the combinations of sources are unbounded", "anchors": ["mairix.c:main"]}
{"id": "C65", "title": "Arguments are options in any documented spelling, then words", "statement": "Any sequence of documented options, each in its short or long spelling with its value, followed by search words (after -- or from the first argument not beginning with a dash) is understood as exactly those options and words; any other argument beginning with a dash before the words is refused.", "quantifier": "all argument lists", "why_tests_cant": "argument lists are unbounded", "anchors": ["mairix.c:main"]}
{"id": "C66", "title": "No rc file causes a memory error", "statement": "Every rc file is either accepted or refused with an error exit, whatever bytes it contains.", "quantifier": "all byte strings as rc file, all environments", "why_tests_cant": "must hold for all files", "anchors": ["mairix.c:parse_rc_file", "mairix.c:add_folders"]}
{"id": "C67", "title": "A search touches only the match folder", "statement": "A search creates, changes or removes nothing outside its match folder: every other name and every existing file's contents are as before. (With --augment the unchanged code violates this: it writes through a symbolic link left by an earlier search and overwrites the user's message.)", "quantifier": "all databases, expressions, discs, match folder formats maildir/mh/mbox/raw", "why_tests_cant": "arbitrary file systems and histories of earlier searches", "anchors": ["search.c:search_top", "search.c:clear_maildir_subfolder", "search.c:clear_mh_folder", "search.c:try_copy_to_path", "search.c:create_symlink"]}
{"id": "C68", "title": "mbox results can be indexed again as the same messages", "statement": "The file written for an mbox match folder splits into exactly the messages found. (The unchanged code violates this when a message has a line that looks like a separator: such lines are not quoted.)", "quantifier": "all lists of results and message contents", "why_tests_cant": "arbitrary contents", "anchors": ["search.c:append_file_to_mbox", "search.c:append_mboxmsg_to_mbox", "mbox.c:build_new_message_list"]}
{"id": "C69", "title": "A maildir or MH match folder holds exactly the results", "statement": "After a search without --augment every result has its own name in the match folder, which is a link to its file or a copy of its message, nothing else is left in the places for results, the number printed is the number of results, and a warning is given exactly if some mailbox message was found changed. (A copy lacks the message's last byte.)", "quantifier": "all databases, expressions, discs", "why_tests_cant": "arbitrary databases, expressions and earlier contents of the match folder", "anchors": ["search.c:search_top", "search.c:do_search", "search.c:mk_maildir_path", "search.c:mk_mh_path"]}
{"id": "C70", "title": "mbox and raw output are the results in order", "statement": "An mbox match folder is the concatenation of one record per result, and raw output one line per result, in the order of the results.", "quantifier": "all databases, expressions, discs", "why_tests_cant": "arbitrary result sets", "anchors": ["search.c:do_search", "search.c:append_file_to_mbox", "search.c:append_mboxmsg_to_mbox"]}
{"id": "C71", "title": "A killed process leaves the database locked", "statement": "If a process is killed while past the lock, no other process gets past it until --unlock is used.", "quantifier": "all schedules of any number of processes, all moments of the kill", "why_tests_cant": "needs specific interleavings", "anchors": ["dotlock.c:lock_database", "dotlock.c:unlock_database"]}
{"id": "C72", "title": "A process alone gets the lock", "statement": "A process that starts when there is no lock file and is not disturbed gets the lock, also when the file system reports failure of a link that was made.", "quantifier": "all states of the other processes", "why_tests_cant": "needs a faulty network file system", "anchors": ["dotlock.c:lock_database"]}
{"id": "C73", "title": "Exactly the documented date expressions are accepted", "statement": "The argument of d: is accepted if and only if it is in one of the documented formats (start-end, start-, -end, period, with days, months and years written in any of the documented ways); anything else is refused, and no argument makes the program fail.", "quantifier": "all argument strings, all current times", "why_tests_cant": "the set of strings is infinite and the formats overlap", "anchors": ["dates.c:scan_date_string", "dates.c:scan_date_expr", "dates.c:discover_type", "datescan.nfa"]}
{"id": "C74", "title": "Uuencoded bodies decode to the original bytes within their buffer", "statement": "Decoding a body marked x-uuencode returns the bytes it encodes, and never writes outside the array allocated for the result.", "quantifier": "all byte strings and splits into lines", "why_tests_cant": "the overrun is silent and depends on line lengths and on where the body ends", "anchors": ["rfc822.c:unencode_data"]}
{"id": "C75", "title": "Unencoded bodies are indexed as they stand", "statement": "A body part without a transfer encoding, or marked 7bit, 8bit or binary in any case, is taken byte for byte.", "quantifier": "all bodies and spellings of the encoding's name", "why_tests_cant": "arbitrary content", "anchors": ["rfc822.c:unencode_data", "rfc822.c:decode_encoding_type"]}
{"id": "C76", "title": "Text split over adjacent encoded words reads as one", "statement": "White space between two adjacent encoded words in a header is dropped, as RFC 2047 demands, so a word that was split over two encoded words can be found by searching for it.", "quantifier": "all pairs of adjacent encoded words", "why_tests_cant": "arbitrary splits of arbitrary text", "anchors": ["rfc822.c:decode_header_value"]}
{"id": "C77", "title": "Structured headers yield their type and parameters", "statement": "A content-type, content-disposition or content-transfer-encoding value made of words, a type/subtype and parameters, with white space and quoting as usual and with RFC 2231 pieces, is read as exactly that list: the type is the first component, a parameter is found under its name in any case, and the pieces of a split value are put together in order. No malformed value makes the parser read or write where it should not.", "quantifier": "all lists of components in all their spellings; all byte strings for safety", "why_tests_cant": "unboundedly many spellings, and a generated automaton of 52 states", "anchors": ["nvp.c:make_nvp", "nvp.c:nvp_lookupcase", "nvp.nfa", "nvp.c:combine_namevalue"]}
{"id": "C78", "title": "Parameters in any spelling the RFCs allow are understood", "statement": "A parameter written as RFC 2045 and RFC 822 allow (white space around the equals sign, escaped characters in quotes, an empty quoted string) has the value it stands for.", "quantifier": "all parameters and spellings", "why_tests_cant": "arbitrary spellings", "anchors": ["nvp.nfa", "nvp.c:make_nvp"]}
{"id": "C79", "title": "The fields of a message are those of its header", "statement": "After a message has been parsed, To and Cc hold all the fields of that name joined by commas, From, Subject, Message-ID, In-Reply-To and References the first field of the name, all with encoded words decoded, and the seen, replied and flagged marks are those named in the Status and X-Status fields; field names are recognised in any case, and the body has no influence.", "quantifier": "all headers, foldings, bodies", "why_tests_cant": "arbitrary combinations and repetitions of fields", "anchors": ["rfc822.c:data_to_rfc822", "rfc822.c:copy_or_concat_header_value", "rfc822.c:scan_status_flags"]}
{"id": "C80", "title": "The date of a message is the day named in its first Date field", "statement": "A Date field made of an optional day of the week, a day, a month name, a year of two to four digits and a time gives the message the date mktime assigns to that day, month and year; a message without Date field has none.", "quantifier": "all messages and all dates in that form", "why_tests_cant": "unboundedly many spellings", "anchors": ["rfc822.c:parse_rfc822_date", "rfc822.c:data_to_rfc822"]}
{"id": "C81", "title": "Any Date field is read safely, and comments in it do no harm", "statement": "A comment behind a date does not change the date, and no Date field makes the parser misbehave.", "quantifier": "all Date fields", "why_tests_cant": "arbitrary text", "anchors": ["rfc822.c:parse_rfc822_date"]}
{"id": "C82", "title": "A MIME message is indexed as the tree that it is", "statement": "A well-formed MIME message, of parts nested to any depth, messages within messages, any mixture of types and of the 7bit, 8bit, binary, quoted-printable and base64 encodings, is read as exactly the list of its leaves in order, each with its kind, its decoded content and its attachment name, inner messages keeping their own header and parts.", "quantifier": "all MIME trees and all their spellings", "why_tests_cant": "unbounded nesting, content and spelling", "anchors": ["rfc822.c:do_body", "rfc822.c:do_multipart", "rfc822.c:do_attachment", "rfc822.c:data_to_rfc822", "rfc822.c:parse_content_type"]}
{"id": "C83", "title": "Parsing ends on any data", "statement": "Parsing any file whatever comes to an end, however parts, messages and encodings are nested in it, and the only things that can go wrong are a read outside the data and an oversized number in a date.", "quantifier": "all byte strings", "why_tests_cant": "termination for arbitrary nested and encoded data", "anchors": ["rfc822.c:data_to_rfc822", "rfc822.c:do_body", "rfc822.c:unencode_data"]}
{"id": "C84", "title": "Every indexing session of a history comes to its end", "statement": "Whatever sessions have come before (each on whatever the folders held at the time, with or without purging), the next session reads the database file, updates the index and writes it without touching memory it must not, failing an assertion or giving up, and the file can be opened by a search.", "quantifier": "all histories of sessions, all folder contents", "why_tests_cant": "unbounded histories of load, update, purge and write", "anchors": ["mairix.c:main", "db.c:new_database_from_file", "db.c:update_database", "db.c:cull_dead_messages", "writer.c:write_database"]}
{"id": "C85", "title": "After any history the index says what the messages say now", "statement": "As long as a changed file has a changed modification time and a mailbox changes only from some message on, after any history of sessions every entry of the index records exactly the words, message-ids, date and flags its message has now, and a search for a word returns exactly the messages that have it now.", "quantifier": "all histories, folder contents, words", "why_tests_cant": "an incremental index may go stale by any sequence of changes", "anchors": ["db.c:update_database", "mbox.c:build_mbox_lists", "mbox.c:find_number_intact", "mairix.c:main", "search.c:search_top"]}
{"id": "C86", "title": "From the folders to the results", "statement": "After any history, a file in the folders is among the results of a search for a word exactly if its text now has that word in that part; and so is a message on the IMAP server.", "quantifier": "all histories, files, words", "why_tests_cant": "end-to-end over unbounded histories and contents", "anchors": ["db.c:update_database", "search.c:search_top", "mairix.c:main"]}
{"id": "C87", "title": "Which lines begin a message in a mailbox", "statement": "A line of a mailbox that starts with 'From ' begins a message exactly if it goes on with a sender (an address, a quoted name, or none) and a date, in the usual order or in the old one with the zone before the year; whatever follows the date does not matter. The code requires the host of an address to have two characters.", "quantifier": "all lines", "why_tests_cant": "the recogniser is a generated automaton; its language is infinite and a wrong edge shows only on particular lines", "anchors": ["fromcheck.nfa", "mbox.c:looks_like_from_separator"]}
{"id": "C88", "title": "Any bytes make an index that can be read again", "statement": "Whatever bytes a message consists of, every word, file name and message-id taken from it is free of NULs and made of bytes, so the index can hold it; the program with its own parser, checksum, hash function and separator recogniser therefore meets all that the session properties assume. The words taken from a MIME message are exactly those its headers, text parts, file names and enclosed messages bear, encoded words and transfer encodings resolved.", "quantifier": "all byte sequences; all locales agreeing with ASCII on white space; all MIME messages", "why_tests_cant": "hostile or broken messages are unbounded in number", "anchors": ["rfc822.c:data_to_rfc822", "tok.c", "db.c:tokenise_message", "hash.c", "md5.c"]}
{"id": "C89", "title": "A search finds a mail exactly if it bears the word", "statement": "After any history of runs of the program, mairix with part:word returns a mail in a file, in a mailbox or on the IMAP server exactly if that mail, read as a MIME message, bears the word in that part now.", "quantifier": "all histories of runs, folders, MIME messages, words", "why_tests_cant": "end-to-end statement over unbounded histories, folders and messages", "anchors": ["mairix.c:main", "rfc822.c", "db.c", "search.c:search_top", "writer.c", "reader.c"]}
{"id": "C90", "title": "What an IMAP server says is read as it says it", "statement": "However the bytes of an answer are cut into pieces by the network, the program reads the same lines; and a line made of words, quoted strings, counted strings and lists is read as exactly these items, and what comes after the line is left for the next one.", "quantifier": "all lines, all ways to cut them, all tags", "why_tests_cant": "answers and cuts are unbounded", "anchors": ["imap.c:imap_readline", "imap.c:imap_waitline"]}
{"id": "C91", "title": "No IMAP server can corrupt the program's memory", "statement": "Whatever bytes a server sends, in whatever pieces, reading an answer ends without touching memory outside the buffers, following a null pointer or overflowing a number.", "quantifier": "all byte sequences, all servers, all commands", "why_tests_cant": "a hostile server can send any bytes", "anchors": ["imap.c", "imapinterface.c:imap_select", "imapinterface.c:scan_folder"]}
{"id": "C92", "title": "An IMAP server receives the command that was meant", "statement": "Every command sent is read by a server, following the IMAP grammar, as that command with those arguments, whatever bytes folder names and mails contain; and the text of the command fits into the buffer allocated for it.", "quantifier": "all commands, all argument strings and nested lists", "why_tests_cant": "argument strings are arbitrary bytes", "anchors": ["imap.c:imap_command_formatter", "imap.c:formatter_string_len"]}
{"id": "C93", "title": "The messages of an IMAP server are all listed and fetched unaltered", "statement": "With a server that answers as asked, listing a set of folders gives exactly the paths of the messages not marked as deleted, in order; fetching any such path gives the bytes of that message; the folders are left as they are. If a folder or a message does not exist, the others are not affected.", "quantifier": "all servers answering in any way the grammar allows, all folders, messages and histories of fetches", "why_tests_cant": "servers, folders and contents are unbounded", "anchors": ["imapinterface.c:build_imap_message_list", "imapinterface.c:imap_fetch_message_raw", "imapinterface.c:make_rfc822_from_imap"]}
{"id": "C94", "title": "Only the match folder on a server is ever altered", "statement": "Whatever a server answers, no sequence of listing, fetching, clearing, copying and appending alters a folder other than the match folder.", "quantifier": "all servers that do only what they are asked, whatever they answer; all sequences of operations", "why_tests_cant": "answers and histories are unbounded", "anchors": ["imapinterface.c:imap_clear_folder", "imapinterface.c:imap_copy_message", "imapinterface.c:imap_append_new_message", "imapinterface.c:imap_select"]}
{"id": "C95", "title": "The index lists exactly the mails of each mailbox, whatever was appended between sessions", "statement": "If mails were only appended to a mailbox between the sessions, then after each session the entries for it are exactly its mails, at their places, also when lines within a message in parts look like separators; and a search returns the k-th mail exactly if it bears the word. If a session runs while a mail is being delivered, the rest of that mail is never indexed (refuted).", "quantifier": "all histories of sessions, all mailboxes and sequences of mails, all search words", "why_tests_cant": "histories, mailboxes and messages are unbounded", "anchors": ["mbox.c:build_new_message_list", "mbox.c:find_number_intact", "mbox.c:rescan_mbox", "mbox.c:marry_up_mboxen", "mbox.c:add_mbox_messages", "rfc822.c:data_to_rfc822"]}
{"id": "C96", "title": "Character classes of scanner descriptions denote the characters written", "statement": "A character is in a class of a scanner description exactly if the text of the class says so, with negation and difference; the code violates this for some characters with code 31, 63, ..., 255 in negated classes (refuted, with the exact set).", "quantifier": "all classes, all characters", "why_tests_cant": "classes are unbounded sets of ranges", "anchors": ["dfasyn/charclass.c:set_bit", "dfasyn/charclass.c:invert_charclass", "dfasyn/charclass.c:diff_charclasses", "dfasyn/parse.y"]}
{"id": "C97", "title": "The tokens of characters tell apart what the description tells apart", "statement": "In a generated scanner a character has a token exactly if a class on some transition contains it, and two characters have the same token exactly if no such class distinguishes them. Classes without any characters make the generator read outside of an array (refuted).", "quantifier": "all scanner descriptions, all pairs of characters", "why_tests_cant": "descriptions are unbounded", "anchors": ["dfasyn/charclass.c:split_charclasses", "dfasyn/charclass.c:print_charclass_mapping", "dfasyn/states.c:expand_charclass_transitions"]}
{"id": "C98", "title": "A generated scanner says exactly what its description says", "statement": "After reading any input from any entry, the state of the scanner made with -ud gives for each attribute exactly the value the description gives for this input; and the scanner stops exactly if the description has no path for the input or an early result came before.", "quantifier": "all scanner descriptions the generator accepts, all entries, all inputs", "why_tests_cant": "descriptions and inputs are unbounded", "anchors": ["dfasyn/n2d.c:generate_epsilon_closure", "dfasyn/n2d.c:build_dfa", "dfasyn/evaluator.c:evaluate_attrs", "dfasyn/tabcompr.c", "dfasyn/dfasyn.c"]}
{"id": "C99", "title": "Compression does not change what a scanner says", "statement": "The scanner made with compression gives the same values, and it stops exactly when no continuation of the input can give an attribute another value than its default.", "quantifier": "all scanner descriptions the generator accepts, all entries, all inputs, any sorting procedure", "why_tests_cant": "descriptions and inputs are unbounded", "anchors": ["dfasyn/compdfa.c:compress_dfa", "dfasyn/compdfa.c:find_dead_states", "dfasyn/n2d.c"]}
{"id": "C100", "title": "A compressed scanner is minimal", "statement": "For any two states of a compressed scanner there is an input after which some attribute has different values.", "quantifier": "all scanner descriptions the generator accepts, all pairs of states", "why_tests_cant": "descriptions are unbounded", "anchors": ["dfasyn/compdfa.c:split_classes", "dfasyn/compdfa.c:compress_dfa"]}
{"id": "C101", "title": "Compressed tables lead to the same states as uncompressed ones", "statement": "For each state and each token, looking up the next state in the compressed tables gives the same as in the full table, and never reads outside of them. The code violates this with more than 256 tokens (refuted).", "quantifier": "all scanner descriptions the generator accepts, all states and tokens", "why_tests_cant": "descriptions are unbounded", "anchors": ["dfasyn/tabcompr.c:compress_transition_table", "dfasyn/dfasyn.c:print_next_state_function"]}
{"id": "C102", "title": "The scanner generator ends, and accepts exactly the descriptions that are not ambiguous", "statement": "For every description with default values, valid references, classes that have characters and tag definitions without circles, the generator ends; it makes a scanner if no input can be read after which two lines of one attribute apply or a tag that has a definition is set, and it exits with code 2 if there is such an input. An attribute without default makes it exit with code 1. Circular tags overrun the stack and empty classes fail an assertion (refuted).", "quantifier": "all scanner descriptions, any sorting procedure", "why_tests_cant": "descriptions are unbounded; the number of states may be exponential", "anchors": ["dfasyn/n2d.c:build_dfa", "dfasyn/evaluator.c:evaluate_attrs", "dfasyn/expr.c:eval", "dfasyn/expr.c:set_tag_value", "dfasyn/dfasyn.c"]}
{"id": "C103", "title": "A scanner description means what is written in it", "statement": "Every scanner that the generator builds from a description sees, after any input, exactly the tags that the description says: states and lines, choices, sequences, abbreviations, and blocks used within blocks to any depth mean what is written; there is one scanner for each declared entry, and no reference is left dangling. This holds if no name has a # and blocks are used only inline; with # in a name it is false, with more than 32 abbreviations the generator follows a pointer to freed memory, and a block within itself is not refused but overruns a buffer (refuted).", "quantifier": "all scanner descriptions whose names have no #, all inputs", "why_tests_cant": "descriptions and inputs are unbounded, blocks nest to any depth and are copied each time they are used", "anchors": ["dfasyn/parse.y", "dfasyn/scan.l", "dfasyn/states.c:add_transitions", "dfasyn/blocks.c:instantiate_block", "dfasyn/abbrevs.c:create_abbrev", "dfasyn/stimulus.c"]}
{"id": "C104", "title": "Attributes of a scanner description are those written", "statement": "For every description that is accepted, each attribute group, and the attributes outside of groups, has exactly the values, the expressions and the latest default that are written for it, in order, even if a group is continued later; each group occurs once; tags defined by expressions are those written.", "quantifier": "all scanner descriptions", "why_tests_cant": "any number of groups, continued any number of times, in any order", "anchors": ["dfasyn/evaluator.c:start_evaluator", "dfasyn/evaluator.c:define_attr", "dfasyn/evaluator.c:define_defattr", "dfasyn/parse.y", "dfasyn/expr.c:define_tag"]}
{"id": "C105", "title": "The tables generated for message separators decide exactly what a From line is", "statement": "With the tables that the scanner generator makes from fromcheck.nfa, as the Makefile calls it, the check whether a line of an mbox begins a message ends for every text, reads no table outside its bounds, and says yes exactly if the text starts with something that reads as an address and a date. The generator does make these tables, whatever correct sorting procedure it uses.", "quantifier": "all texts of bytes, any sorting procedure, any sufficient stack", "why_tests_cant": "texts are unbounded, and the tables are the result of another program: that they agree with the description is a matter of all inputs", "anchors": ["mbox.c:looks_like_from_separator", "fromcheck.nfa", "dfasyn/dfasyn.c", "Makefile.in"]}
{"id": "C106", "title": "The tables generated for dates tell every date from everything else", "statement": "With the tables that the scanner generator makes from datescan.nfa, as the Makefile calls it, the check what kind of date a text is ends for every text, reads no table outside its bounds, and finds exactly the kind that the text has: day, year, six or eight digits, a number and a letter, or a combination of day, three letters for the month, and year. No text has two kinds. The generator does make these tables.", "quantifier": "all texts of bytes, any sorting procedure, any sufficient stack", "why_tests_cant": "texts are unbounded, and that the generated tables agree with the description is a matter of all inputs", "anchors": ["dates.c:discover_type", "datescan.nfa", "dfasyn/dfasyn.c", "Makefile.in"]}
{"id": "C107", "title": "The tables generated for structured header values read every one as it is written", "statement": "With the tables that the scanner generator makes from nvp.nfa, as the Makefile calls it, reading a structured header value (Content-Type, Content-Disposition and the like) ends for every text of bytes, reads no table outside its bounds, and gives for a well-formed list of components exactly the entries these stand for. The generator does make these tables.", "quantifier": "all texts of bytes, any sorting procedure, any sufficient stack, any classification of white space that agrees on the characters of names", "why_tests_cant": "texts are unbounded, and that the generated tables agree with the description is a matter of all inputs", "anchors": ["nvp.c:make_nvp", "nvp.nfa", "dfasyn/dfasyn.c", "Makefile.in"]}
{"id": "C108", "title": "Any search about what mails say finds exactly the mails that say so", "statement": "After any history of runs of the program, a search with any number of arguments - words or groups of words in any parts, with ~, ^, substrings, spelling errors, alternatives; message-ids; dates - returns a mail exactly if the mail, read as a MIME message, now satisfies all the arguments.", "quantifier": "all histories of runs, folders, MIME messages, search arguments about text, message-ids and dates", "why_tests_cant": "end-to-end statement over unbounded histories, folders, messages and expressions", "anchors": ["mairix.c:main", "search.c:search_top", "search.c:do_search", "rfc822.c", "db.c", "writer.c", "reader.c"]}
{"id": "C109", "title": "A search for a day finds the mails of that day", "statement": "After any history of runs, d:period finds exactly the mails whose Date field names a day from the first to the last day of the period. The code violates this: mails are dated at midnight standard time and the search is for later moments only, so that where there is no summer time no mail of the first day of the period is found, and none at all for a single day.", "quantifier": "all histories of runs, folders, MIME messages, periods, moments, time zones", "why_tests_cant": "depends on the time zone and on the season; end-to-end over unbounded histories", "anchors": ["rfc822.c:parse_rfc822_date", "dates.c:scan_date_string", "search.c:find_date_matches_in_table"]}
{"id": "C110", "title": "Descriptions of scanners are read as their grammar says", "statement": "The reader of scanner descriptions gives a description exactly when the grammar makes the tokens that description, with the precedences declared for the operators; no sequence of tokens has two meanings; every other sequence ends the program with code 1.", "quantifier": "all sequences of tokens", "why_tests_cant": "ranges over all token sequences, of any length and nesting, accepted and refused", "anchors": ["dfasyn/parse.y", "dfasyn/dfasyn.c:main"]}
{"id": "C111", "title": "The text of a scanner description is read as its rules say", "statement": "The tokens of a text are those that the rules of the scanner give by the longest match, the first rule deciding between equal ones; a text is read as a description exactly when those tokens are one by the grammar; every other text ends the program with code 1.", "quantifier": "all texts", "why_tests_cant": "ranges over all texts, and over all competing matches of some sixty rules at every position", "anchors": ["dfasyn/scan.l", "dfasyn/parse.y"]}
{"id": "C112", "title": "Compressed and plain folders can be read in any order", "statement": "Folders used one after the other, compressed or not, in any order and any number of times, always show their (decompressed) contents, and memory does not pile up. The code violates this: a compressed folder used again after plain ones only loses its mapping and the next use of it crashes; it holds otherwise.", "quantifier": "all folders, all sequences of uses, all placements of mappings by the system, all contents and sizes", "why_tests_cant": "depends on the order of uses over unbounded sequences through a cache and a global variable", "anchors": ["rfc822.c:create_ro_mapping", "rfc822.c:free_ro_mapping", "rfc822.c:find_ro_cache", "rfc822.c:add_ro_cache", "xzfile.c"]}
{"id": "C113", "title": "A damaged compressed folder is reported and left out", "statement": "If decompressing a folder fails, the program reports that and goes on without it. The code violates this for every compressed folder in which a read fails: the failure is taken for a length and memory outside of the buffer is read.", "quantifier": "all compressed folders, all positions of the damage", "why_tests_cant": "ranges over all contents and positions of damage", "anchors": ["rfc822.c:create_ro_mapping", "rfc822.c:xx_zread", "xzfile.c:xzread"]}
{"id": "C114", "title": "The out-of-memory message names the place and the size", "statement": "When memory cannot be had, the program writes the file, the line and the number of bytes asked for and ends with code 2. The code violates this: a size of 0 is left out and sizes of 2^31 or more are told wrongly; all others are told right.", "quantifier": "all places and all sizes", "why_tests_cant": "running out of memory cannot be provoked for all sizes", "anchors": ["mairix.c:out_of_mem", "mairix.c:emit_int"]}
{"id": "C115", "title": "Any search returns exactly the mails that are as asked for", "statement": "After any history of sessions, a search with arguments of every kind (words, message-ids, dates, paths, sizes, flags) returns an entry exactly if its mail, as it is now, satisfies all of them: the words it bears, the day it names, the path it lies at, the length of its text, and the flags in its file name or, in a mailbox, in its Status fields.", "quantifier": "all histories, folder contents, MIME messages and arguments", "why_tests_cant": "sizes and flags are recorded when a mail is indexed and may go stale by any sequence of changes", "anchors": ["search.c:search_top", "search.c:find_size_matches_in_table", "search.c:find_flag_matches_in_table", "search.c:match_substring_in_paths", "db.c:update_database", "rfc822.c:scan_status_flags", "db.c:scan_maildir_flags"]}
{"id": "C116", "title": "The dump of an index lists exactly what is in it", "statement": "For every index that can be written, printing the written file (option -d) succeeds and prints the listing of that index: every entry in order with its kind, path or mailbox position, size, thread and flags, every mailbox with its number of messages, the hash key, and every word of every table with exactly the entries that have it, sixteen to a line. Numbers from 2^31 on are not listed as they are: a mail of 3 GB gets a negative size.", "quantifier": "all indexes that can be written, all earlier contents of the file, all ways of showing numbers", "why_tests_cant": "every byte of the layout of the file, of any size, has a part in what is printed", "anchors": ["dumper.c:dump_database", "dumper.c:dump_token_chain", "dumper.c:dump_toktable", "dumper.c:dump_toktable2"]}
{"id": "C117", "title": "The password goes only where it should", "statement": "Whatever an IMAP server says, and in whatever pieces it arrives, the requests mairix sends when it introduces itself are: perhaps a question about capabilities, then either one LOGIN with the configured name and password, or a request for TLS; after that, if the keys could be agreed on and the certificate is valid and bears the name of the server, the question again and one LOGIN, all by way of TLS, and if not, nothing more. Name and password are sent at most once, in no other request, and only after the server has named LITERAL+ and AUTH=PLAIN. The name test of the code is weaker than the rules for certificates: a star alone suits every server and what follows a NUL is not looked at.", "quantifier": "all servers (every reaction to every request), all results of the TLS handshake, all greetings, all names and passwords that can be sent", "why_tests_cant": "the peer is arbitrary and hostile", "anchors": ["imap.c:imap_login", "imap.c:starttls", "imap.c:ask_for_capabilities", "imap.c:get_capabilities"]}
{"id": "C118", "title": "TLS is used where it is offered", "statement": "If the greeting of the server offers STARTTLS, the first request asks for it, and name and password are then sent by way of TLS only, to a server that has said there what LOGIN depends on. The code violates the second part: if the server refuses TLS after offering it, the password is sent in the clear; and what was received along with the answer to STARTTLS is taken for what comes by way of TLS, so that one who can add bytes in the clear can play the server until mairix takes itself to be logged in.", "quantifier": "all servers, all greetings that offer TLS, in all spellings and pieces", "why_tests_cant": "needs every reaction of a hostile peer", "anchors": ["imap.c:imap_login", "imap.c:starttls", "imap.c:imap_ll_waitline"]}
{"id": "C119", "title": "Login ends as the server's answer says", "statement": "With a server that greets with OK and capabilities (LITERAL+, AUTH=PLAIN, no TLS) and answers LOGIN with any lines and a last line that has a word and capabilities, mairix is logged in exactly if the word is OK and LITERAL+ is among the capabilities, is refused exactly if the word is NO, and gives up otherwise, however the text is cut into pieces. With TLS: to a server that cannot be trusted nothing is sent after the handshake; if it can, what it says it can do after the handshake, and not what it said before, decides whether LOGIN is sent, and its answer decides as above.", "quantifier": "all names, passwords, capability lists, further lines, spellings and pieces", "why_tests_cant": "unbounded texts and ways of cutting them", "anchors": ["imap.c:imap_login", "imap.c:imap_ll_command", "imap.c:imap_ll_status"]}
{"id": "C120", "title": "No server makes mairix crash at login", "statement": "Whatever the server does, login does not follow a null pointer. The code violates this: a server that greets and then closes the connection makes it dereference NULL when it looks at the answer that did not come.", "quantifier": "all servers", "why_tests_cant": "the peer is arbitrary", "anchors": ["imap.c:imap_ll_status", "imap.c:starttls", "imap.c:ask_for_capabilities"]}
{"id": "C121", "title": "A request is sent whole, once and in order", "statement": "However the system takes the bytes of a request (in any pieces, with signals, with nothing taken for a while), with and without TLS, a request that is reported as sent has been sent whole, once and in order; otherwise only a proper beginning of it has been sent; and if nothing goes wrong and the system keeps taking bytes it is sent.", "quantifier": "all requests and all sequences of results of poll, write and SSL_write", "why_tests_cant": "all schedules of short writes and interruptions", "anchors": ["imap.c:imap_ll_write"]}
{"id": "C122", "title": "Saying goodbye ends", "statement": "At the end of a session exactly one LOGOUT is sent, numbered like any other request, its text fits the buffer it is made in, and mairix comes to an end whatever lines the server sends.", "quantifier": "all servers, all states of the connection", "why_tests_cant": "the peer is arbitrary", "anchors": ["imap.c:imap_ll_logout"]}
{"id": "C123", "title": "The match folder on a mail server holds exactly the matches", "statement": "With a mail server that answers and does as it is asked, a search with the results going to a folder on the server clears that folder, copies the matching messages of other folders and appends the matching mails from files; afterwards the folder holds exactly those messages, in that order, with their texts and flags, and no other folder has changed. Without clearing, they come after the messages that are there. A missing folder is made when messages are copied into it.", "quantifier": "all servers that keep to the protocol, however they spell their answers and cut them into pieces; all folders; all sequences of matches", "why_tests_cant": "all servers, all mailboxes and all sequences of matches", "anchors": ["imapinterface.c:imap_clear_folder", "imapinterface.c:imap_copy_message", "imapinterface.c:imap_append_new_message"]}
{"id": "C124", "title": "A missing match folder on a mail server is made for mails from files", "statement": "When matching mails from local files are to go into a folder on the server that does not exist, the folder is made and the mails are put there.", "quantifier": "all servers that keep to the protocol, all mails", "why_tests_cant": "all servers and all mails", "anchors": ["imapinterface.c:imap_append_new_message", "imapinterface.c:imap_select"]}
{"id": "C125", "title": "Lines are read however they arrive, and never by halves", "statement": "However the system delivers the bytes of a server's line (in any pieces, with signals, with nothing for a while), with and without TLS, the line is read as what it says and what follows it is kept. If an error, the timeout or the end comes before the line is complete, no line is reported. Whatever arrives, nothing outside of the buffer is touched, and mairix goes on waiting only as long as nothing has gone wrong.", "quantifier": "all lines, all sequences of results of poll, read and SSL_read", "why_tests_cant": "all schedules of short reads, interruptions and failures", "anchors": ["imap.c:imap_ll_waitline"]}
{"id": "C126", "title": "A match folder on a mail server holds just the results", "statement": "With a match folder on a mail server that does as it is asked, a search leaves in it exactly one letter for each result, in order, with the text and the flags of the message, wherever the message lies: in a file, in a mailbox, or in another folder of the server. With --augment these come after what was there. No other folder is altered. (Each message is still where the index says; the folder exists, or all results are on the server.)", "quantifier": "all indexes, discs, servers that behave, folders and lists of results", "why_tests_cant": "all histories of mail on disc and server", "anchors": ["search.c:do_search", "imapinterface.c:imap_append_new_message", "imapinterface.c:imap_copy_message"]}
{"id": "C127", "title": "Mailbox messages that are no longer there are left out of a match folder on a server", "statement": "A result whose mailbox has changed or cannot be read any more adds nothing to a match folder on a mail server, and the search goes on.", "quantifier": "all indexes, discs and servers", "why_tests_cant": "all changes of a mailbox after it was indexed", "anchors": ["search.c:get_validated_mbox_msg", "search.c:do_search"]}
{"id": "C128", "title": "Commands for a server are built as they are written", "statement": "Each command for a mail server is built from exactly the words, names, numbers, passwords and mails it is given, whether these end in a NUL or come with a length, and with lists and parts built before in their place. No byte beyond those given is read.", "quantifier": "all lists of arguments and all strings", "why_tests_cant": "all names, passwords, mails (with any bytes) and shapes of commands", "anchors": ["imap.c:imap_ll_build", "imap.c:imap_ll_append", "imapinterface.c:imap_append_new_message"]}
{"id": "C129", "title": "Excerpts show the place and header of each result", "statement": "With the excerpt format, each result gets, in order, a rule, the place of the message, and a line for each of To, Cc, From, Subject, Message-ID and In-Reply-To that the message has now, and its date. Of a message that cannot be read, or whose bytes in a mailbox are no longer those indexed, only the place is shown. A warning is given exactly if a message of a mailbox has changed. Nothing on disc is altered.", "quantifier": "all databases, discs and lists of results", "why_tests_cant": "all mails, mailboxes and changes since they were indexed", "anchors": ["search.c:do_search", "rfc822.c:make_rfc822", "rfc822.c:data_to_rfc822"]}
