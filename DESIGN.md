# Formal model of mairix: design

This directory holds a Rocq/Coq 8.16.1 model of rc0/mairix (source read as text from /repo) and
machine-checked theorems about it.  Properties are listed in `properties.jsonl`, their status in
`MANIFEST.json`, and mutation experiments in `seeded/LOG.jsonl`.

## Layout of `rocq/theories`

* `Base.v` – bytes (`N`), C strings (`list N` without 0), helpers.
* `M_*.v` – the model: total, computable Gallina functions.  No proofs.  Each definition cites the
  file and lines of /repo it models and says where it simplifies.
* `S_*.v` – small specifications, written without reference to the model.
* `L_*.v` – lemmas and proofs.
* `P_*.v` – property theorems only: each closed by `exact lemma`, with `Print Assumptions` and a
  concrete non-trivial `Example` meeting its hypotheses.

Only the standard library is used.  No axioms are added.

## Modelling conventions

* A C `char *` is a `list N`, each element `< 256`.  NUL-terminated strings omit the NUL.
* Out-of-bounds access, shifts past the word size, failed `assert`, and `exit` are explicit outcomes
  (`option`/result constructors), never silently defaulted; a theorem states which it excludes.
* Wrap-around is written explicitly (`mod 2^32`, `mod 2^64`) where the property depends on it.
* Loops become structural recursion, folds, or fuel with an explicit out-of-fuel outcome that the
  theorem excludes.
* Hash function, separator recogniser, clock, checksum and environment are ordinary parameters of
  the functions, so the theorems hold for every such function.  (Separate models of the concrete
  hash, DFA and MD5 are given where a property speaks about them.)
* Where the faithful model violates the property, the theorem is named `..._refuted` and exhibits a
  witness; the proved remainder carries its real name or `_partial`.

## Trusted base

1. Coq 8.16.1's kernel, including `vm_compute` (used in proofs that compute; `coqchk` redoes them
   without it).
2. What `Print Assumptions` prints. Every theorem in every `P_*.v` file is followed by that command, and
   each of them prints `Closed under the global context`: no axiom of the standard library or of
   anything else is used. (The whole-library report of `coqchk -o` also names seven constants
   `Coq.ssr.ssrunder.Under_rel.*`: they belong to the ssreflect support that comes with Coq and
   is loaded by modules of its library. No theorem here depends on them.)
3. The reading of /repo by which the model was written. The code is never run. Each `M_*.v` definition
   cites its lines and its simplifications; `seeded/LOG.jsonl` shows that edits of the model are noticed.
4. What is assumed of the world outside, always as a parameter or a hypothesis that the theorem names:
   * the hash function, `isalnum`, `isspace`: arbitrary functions; `tolower` in `add_token` is that of
     the C locale. `hash.c` and `md5.c` are modelled on their own as well;
   * the operating system during an indexing run: the record `world` of `M_Update` (stat, lstat, file
     contents, checksums), with `world_ok` saying only that separate calls agree with each other;
     folders, runs and histories: `machine` and `disc` of `M_Program`; sessions of indexing and
     searching: conditions such as `undisturbed` of `S_Session`, where values of memory that is allocated and
     not written are fields of the session;
   * search results: the small file system of `M_Output` (names, links, contents; no permissions, no
     full discs except where a theorem says so);
   * `getenv`, `getpwuid`, `sscanf` on the forms used: parameters of `M_Config`;
   * what `printf` makes of numbers in a dump: a parameter of `M_Dump`;
   * `gmtime` and `strftime`, and a mail fetched from a server and parsed (`make_rfc822_from_imap`): parameters of `M_Excerpt`;
   * `poll`, `write`, `SSL_write`, `read`, `SSL_read`: arbitrary results in `M_Write` and `M_Read`, except that no more bytes are taken or given than were offered or asked for;
   * the SSL library: the handshake and its verdict on the certificate are a parameter of `M_Login` (and, for C117, of the server too), and what is sent and received after it is not altered;
   * the clock, `mktime` and `localtime`: parameters; `zone_ok` and `same_clock` (`S_Zone`, `S_Query`) say that they
     belong to one time zone; the clock does not tick within one call;
   * `qsort`: any function that returns a sorted permutation;
   * the lock file: `M_Lock` interleaves the system calls of any number of processes; its
     simplifications are listed at its head;
   * the IMAP server: the function `serve`, arbitrary unless a theorem says what it answers; `malloc`
     succeeds;
   * flex and bison: their generated code is not modelled. `M_Scan` and `M_Parse` are written by hand
     and proved equal to the rules and the grammar (C110, C111). All tokens are scanned before the
     first is parsed. `M_Files` holds the texts of the three `.nfa` files as constants;
   * dfasyn runs with 64-bit longs; its hash table of state sets is a list; recursion depth is fuel with
     an error value; names that `snprintf` would cut give an error value.

## What is modelled and what is not

| /repo file | modelled | where | not modelled |
|---|---|---|---|
| db.c | 53-1317 | M_TokTable, M_DbFile, M_Tokens, M_Update, M_Thread, M_Purge | `free_database` |
| tok.c | all functions but freeing | M_TokTable | |
| hash.c, md5.c | all | M_Hash, M_Md5 | |
| writer.c, reader.c | all but error messages | M_Encoding, M_DbFile | |
| search.c | 49-1553 | M_Search, M_WuManber, M_Output, M_ImapOut, M_Excerpt | text printed in verbose mode |
| dates.c, datescan.nfa | all | M_Dates, M_Tables | test driver |
| mbox.c, fromcheck.nfa | 38-1122 | M_Mbox, M_From, M_Update | |
| dirscan.c, glob.c, expandstr.c | all | M_Paths, M_Glob, M_Config | |
| dotlock.c | all | M_Lock | |
| rfc822.c | 73-1083, 1309-1485 | M_Decode, M_Header, M_Words, M_Rfc822 | the debugging driver |
| rfc822.c, xzfile.c: compressed files | 1086-1450; the decompression libraries are a parameter | M_Mapping | |
| nvp.c, nvp.nfa | all | M_Nvp, M_Tables | `nvp_dump` |
| mairix.c | 42-364, 556-854; 365-415 | M_Config, M_Program, M_Session, M_Report | texts of `--help` and `--version` |
| imap.c, imapinterface.c | 94-101, 170-205, 233-1006, 1046-1323 and all of imapinterface.c | M_Imap, M_Login, M_Write, M_Read, M_CmdBuild | connecting, pretty printing |
| stats.c | nothing | | its only call (mairix.c 844-846) is compiled out |
| dumper.c | all; printf's conversions of numbers are a parameter | M_Dump | |
| dfasyn/ | scan.l, parse.y, abbrevs.c, blocks.c, charclass.c, compdfa.c, evaluator.c, expr.c, n2d.c, states.c, stimulus.c, tabcompr.c, and the tables of dfasyn.c | M_Scan, M_Parse, M_Blocks, M_Charclass, M_Dfasyn, M_Compdfa, M_Tables | printing of C text around the tables, verbose reports |
| test/ | nothing | | |

## Where the code does not do what one would expect

Proved as `..._refuted` theorems, each with a witness; they are listed with their claims, which have the
status `partial`, in `MANIFEST.json`. Properties concerned: C02, C08, C10, C11, C15, C17, C18, C22, C23, C28, C29,
C33-C36, C39, C45, C47, C49, C51, C53, C58, C61, C64, C66-C69, C73, C74, C76, C78, C81, C82, C85, C87, C90-C93,
C95-C97, C101-C103, C109, C112-C114, C116-C118, C120, C124, C127 and later ones that the manifest names. Seen and not proved: copying an instance of a block replaces the tags of an existing state;
the class `[\.\-+]` of nvp.nfa contains the backslash.

## Plan per property

| id | modelled | proof |
|----|----------|-------|
| C01 | `insert_value`, `insert_index_on_encoding`, `int_list_reader_read` as byte-list functions | induction on the list; width cases by arithmetic |
| C02 | same, with the assertion as an outcome | refuted by witness at 63*2^24 |
| C03 | `check_and_enlarge_encoding`, capacity field | invariant over all histories |
| C04 | reader as a state machine over an arbitrary byte array; reads logged as offsets | induction on remaining length |
| C05 | hash table with probing and growth, arbitrary hash | invariant + refinement to a finite map |
| C06 | probe loop with fuel = table size | pigeonhole on free slots |
| C07 | `recode_encoding`, `recode_toktable` incl. gap closing passes | invariant, termination measure |
| C08 | byte-level writer and reader, little-endian words | layout lemma + per-table round trip; refuted when loading an empty list leaves its highest number uninitialised (C08_db_roundtrip_refuted) |
| C09 | write set as list of (offset, value) | disjointness from layout lemma |
| C10 | `open_db` on arbitrary bytes with 32-bit wrap | refuted for the type table; proved for what is checked |
| C11 | sequence of in-place writes, crash = prefix of them | refuted; partial: completed writes |
| C12 | composition of C05, C01, search | corollary |
| C13-C15 | Wu-Manber automata on `N` bit vectors (64-bit) | bit-level invariant against substring / edit distance |
| C16-C19 | `do_search` argument parser and hit vectors | induction on arguments against a declarative evaluator |
| C20 | the three filters, 32-bit comparison semantics | pointwise |
| C21 | `find_threading` | union-find invariant against reachability |
| C22 | `-t` loop with bounds outcome | pointwise; refuted after purge |
| C23-C25 | `update_database`, `lookup_msgpath` | relational invariants; bisection invariant |
| C26-C27 | mbox scanners, `find_number_intact` | induction on file |
| C28-C29 | globber compile and match | automaton invariant against inductive matching relation |
| C30, C50 | `split_on_colons`, `copy_folder_name`, `add_folders` | induction |
| C31-C32 | tokenisers | against run-splitting spec |
| C33-C35 | output names, `scan_maildir_flags`, `mbox_terminate` | decimal printing injective, string lemmas |
| C36 | lock protocol as transition system over atomic syscalls | refuted by schedule; invariant for the part that holds |
| C37 | both scanners of expandstr.c (`M_Config`) | simulation of the two scanners against an inductive specification of expansion |
| C38-C41 | rfc822.c decoders and splitters | round trips and bounds |
| C42 | packing | arithmetic |
| C43 | integrity checks | from C01/C05 invariants |
| C44 | `member_of` and guard over an abstract file system | case analysis |
| C45 | comparator | refuted; partial for dates within 2^31 |
| C46 | range clipping and checksum comparison | case analysis |
| C47 | dates.c over abstract calendar | finite sweeps lifted / arithmetic |
| C50-C54 | config directives, folder expansion over an abstract file system | induction on directory trees; refuted for omit |
| C55 | `cull_dead_messages`, `cull_dead_mboxen` | from C07, order-preserving renumbering |
| C56 | `add_angled_terms` | induction on the header value |
| C57-C62 | the whole indexing run (`update_database`, `build_mbox_lists`, `add_mbox_messages`) over an abstract world | step-by-step relations composed; refutations by computation |
| C63-C66 | rc file, environment, arguments (`M_Config`: mairix.c 138-292 and main up to the lock) | lines and options as syntax trees with a spelling; invariant over the lines read; error cases by inversion; refutations by computation |
| C67-C70, C33-C35, C46 | the output stage (`M_Output`: search.c 560-762, 1079-1342, 1354-1558 for maildir, mh, mbox and raw) over a small file system of names, links and inodes | frame relation `kept` through preparation and the loop over results; a loop invariant for what each name shows; names by injectivity of decimal numerals; refutations by computation |
| C36, C71, C72 | the lock (`M_Lock`: dotlock.c, signal handler and exits of mairix.c) as a transition system with any number of processes, each C library call one step | inductive invariant over all schedules; refutations are explicit schedules |
| C47, C73 | date expressions (`M_Dates`: dates.c, datescan.nfa as the paths of its automaton); `localtime` and `mktime` are parameters described by `zone_ok` (S_Zone), which UTC is proved to satisfy over the whole Gregorian calendar | the manual's grammar and meaning as a separate spec (`spells`, `first_day`, `last_day_of`); a finite sweep over character classes shows that the rules do not overlap; refutations by computation in UTC |
| C48 | md5.c and `compute_checksum` (`M_Md5`): the 64 unrolled steps, the 64-byte buffer and the two bit counters with their carry | RFC 1321 written again as `md5_of` (S_Md5): bitwise auxiliary functions, indices by formula; invariant over pieces (whole blocks absorbed, rest in the buffer, counter modulo 2^64) |
| C38, C39, C74, C75 | `unencode_data` (`M_Decode`): input as the memory readable from a pointer, output array with its capacity checked on every write | encoders as separate spec functions/relations (S_Decode); induction over groups, tables checked by a sweep over all 256 bytes; refutations by computation |
| C40 | `split_and_splice_header`, `audit_header`, `splice_header_lines` (`M_Header`) | fields with continuation lines as a syntax tree with a spelling (S_Header); the parser accepts exactly the spellings |
| C41, C76 | `decode_header_value` (`M_Words`) over an explicit memory with checked reads and writes | memory split into what is written, a gap and what is still to be read; meaning of encoded words as a separate relation (S_Words); refutation by computation |
| C77, C78 | `make_nvp` and the look-ups of nvp.c over the automaton of nvp.nfa (`M_Nvp`: sets of NFA states, literal blocks) | the automaton is shown equal to a table of 52 states; grammar of components (S_Nvp) followed through it; safety by a finite abstraction closed under all steps; refutations by computation |
| C49 | `next_boundary`, `slices`, `do_multipart` (`M_Rfc822`) | grammar of multipart bodies (S_Multipart); offsets followed through the scan; order and range of the slices for any body; refutations by computation |
| C79, C80, C81 | `data_to_rfc822`, `parse_rfc822_date`, `scan_status_flags` (`M_Rfc822`); mktime is a parameter | values of the fields of a name as a separate function of the lines (S_Rfc822), dates as a relation; invariant over the header lines; refutations by computation |
| C82, C83 | `do_body`, `do_attachment`, `do_multipart` and `data_to_rfc822` (`M_Rfc822`), mutually recursive, with fuel | MIME trees as a mutual inductive grammar over the grammars of C38-C40, C49 and C77 (S_Mime); mutual induction; termination by a bound on the nesting: whatever is parsed inside is shorter |
| C84, C85, C86 | the indexing branch of `main` (`M_Session`): load, integrity check, `index_run`, purge, write; histories as an inductive relation (`S_Session`) | invariant of the file over histories: it is the image of a good index, every live entry of which is anchored in an earlier session that read it (same words, same stamp); stamps that agree mean the same text (`honest`); loading and purging carry entries over; a mailbox edited in the middle refutes C85 without `undisturbed` |
| C87 | the automaton of `fromcheck.nfa` (`M_From`): blocks, states, edges, epsilon edges, subset simulation as dfasyn generates it, and the loop of `looks_like_from_separator` | set simulation = paths; the language of every block, computed backwards from its exits (`rb`, `rs`), = a combinator grammar of addresses, dates and zones (`S_From`); a one-character host refutes the natural grammar |
| C88, C89 | the program put together (`M_Program`): modelled parser, MD5, hash function (`M_Hash`) and separator recogniser as the world of `M_Session`, on a `machine` (locale, time zone) and a `disc` (files, server) | every string the parser returns is cut at a NUL of a byte memory, so `world_ok` holds (`L_Text`, `L_Text2`); the attachments that depict a MIME tree mention exactly the words the tree bears (`S_Program.bears`); composition with C82, C85, C86. Assumed: `sound`, no text met makes the parser run over its end (the cases refuted in C39, C74, C81) |
| C90, C91 | the reader of `imap.c` one byte at a time (`M_Imap.step`), buffer refills as a list of pieces | state after a prefix depends only on the bytes; induction over the items of `S_Imap.item` (written independently as a spelling relation of the IMAP grammar); safety by an invariant of the reader over arbitrary bytes. The code breaks both: no backslash in quoted strings, counted strings inside free text, int overflow in counts, null pointer for one-word lines |
| C92 | the command formatter and its length function | a server-side reader written from the IMAP grammar (`S_Imap.received`) gives back the items; length by induction. The code does not escape backslashes |
| C93, C94 | `imapinterface.c` over a server that is a parameter (`serve : state -> bytes -> state * answer`); no TLS, no login | `S_Server`: abstract post office, what requests mean (`may_change`), what a good answer `tells`; C93 for servers that answer in any permitted form, C94 for servers that obey but answer anything. A reference server (`L_Imap6.model_serve`) meets both. The code breaks C93 after a missing folder (stale selection) and for a vanished message (uninitialised variable) |
| C95 | `mbox.c` within whole sessions (`M_Session`, `M_Program`) | `S_Boxes`: a mailbox is a list of mails; invariant over the history that the entries kept for a mailbox are its first mails (`L_Boxes3.box_holds`). `mails_parted`: greedy splitting with retry after a missing last boundary gives back exactly the mails. The code breaks it if a session runs during a delivery |
| C96, C97 | `dfasyn/charclass.c` with its 32-bit masks in 64-bit longs, classes as written in the grammar (`M_Charclass`) | bits of `make_class` computed per character; `1<<31` is negative as an int, so one bit more than meant is set and inversion (which flips 32 bits) leaves it: `misread` is the exact set. Splitting: invariant that the groups made so far are sets of characters no class tells apart |
| C98 | `n2d.c`, `evaluator.c`, `expr.c` (`M_Dfasyn`), `dfasyn.c` tables (`M_Compdfa.dfasyn`); the grammar, blocks and abbreviations are not modelled, a description is a record `nfa_file` | `S_Dfasyn`: paths, tags, truth of conditions, values of attributes, without sets of states. Closure by Warshall-like rounds; subset construction by an invariant of the work list (every node's set is exactly what is reachable by its word); attributes by evaluation with the stack as fuel |
| C99, C100 | `compdfa.c` (dead states, partition refinement with qsort as a parameter) | dead states = not promising (least fixed point); the partition refines to a congruence (C99) and every split is witnessed by an input (C100) |
| C101 | `tabcompr.c` default states and the bisecting `next_state` | sortedness of the included tokens, depth of default chains is one; tokens stored in bytes are exact below 256 (refuted above) |
| C102 | the whole of `M_Compdfa.dfasyn` with its outcomes; the stack and the number of rounds are fuel with error values | every set of states found is reached by a readable input, or a faulty input was found before (`L_Outcome.known_row`); there are at most 2^n sets; ranks of tags bound the stack |
| C103 | `scan.l` as `M_Scan`, the grammar as `M_Parse` (recursive descent in place of bison's tables), its actions and `states.c`, `blocks.c`, `stimulus.c`, `abbrevs.c` as `M_Blocks`; `S_Blocks` says what a description means without copies or internal states | copies of a block keep paths and tags (`L_Blocks`–`L_Blocks4`), the environment after each declaration means what was declared (`L_Blocks5`), union of the blocks with entries (`L_Blocks6`); refutations by computation and by the growth of copied names |
| C104 | `evaluator.c` start_evaluator and define_*, `parse.y` attribute rules | invariant over declarations: every group's evaluator is the one of the lines written so far (`L_Blocks8`) |
| C105 | `mbox.c` looks_like_from_separator on the tables, `fromcheck.nfa`, `Makefile.in` 67-68 | `M_Tables`: the loop on char2tok, next_state and the attribute table; the description as read (`L_Tie3`) has the same language as `M_From` by induction both ways; C99-C104 give the state after each prefix; room for the states from a closed list of state sets (`L_Room`) |
| C106 | `dates.c` discover_type on the tables, `datescan.nfa`, `Makefile.in` 64-65 | as C105; the words of each line of the description are computed as sequences of classes (`L_Tie6`, `L_Tie7`) and compared with `M_Dates`; `L_Kinds` compares those with the words of `S_Tables` |
| C107 | `nvp.c` make_nvp on the tables, `nvp.nfa`, `Makefile.in` 64-71 | as C105; because the description has loops, the sets of states reached are compared with the states of `M_Nvp` by a simulation checked by computation over all classes of characters (`L_Sim`, `L_Tie10`), then lifted to all texts by induction (`L_Tie11`) |
| C108 | the whole program, `search.c` with any arguments | C16 on the file that a history ends with, C85 (every entry says what its message says) and C82 (what a MIME message bears); meaning of arguments for mails in `S_Query` |
| C109 | as C108, with `dates.c` for the argument and `rfc822.c` 926-985 for the date of the mail | C47, C80 and C108 put together; refuted for single days in UTC, and proved with the first day left out |
| C110 | `parse.y` 76-258 (M_Parse, as functions that look one token ahead) | S_Grammar: the grammar as relations, expressions by levels; soundness, completeness with the tokens that may follow, and bounds on the fuel |
| C111 | `scan.l` 35-106 (M_Scan, a scanner by hand) | S_Flex: the rules as patterns with start conditions, `^` and `$`, and flex's choice (longest, then first); for each first character the rules that can apply are computed, the others proved unable; scanning is deterministic; C110 put behind it |
| C112, C113 | `rfc822.c` 1086-1452, `xzfile.c`: memory map, cache of one, data_alloc_type (M_Mapping); reads from the libraries are a parameter | invariant over all sequences of uses: the space holds exactly the cached file; refutations for all files |
| C114 | `mairix.c` 367-415 (M_Report), with the conversion of size_t to int | digits by induction on the room in the buffer; for the refutation the message is cut at the comma and the numbers compared |
| C115 | as C108, with paths, sizes and flags | the invariant of C85 also keeps the flags (from `run_meta`) and, for files, a session at which the system told the recorded size and since which the contents are the same (`sized`); meaning of all arguments for mails in `S_Query2` |
| C116 | `dumper.c` (M_Dump) over the file; printf's conversions of numbers are a parameter | the listing of an index as a relation that knows nothing of the file (`S_Dump`); layout lemmas of C08 for each field that is read; refuted for sizes from 2^31 on |
| C117-C120 | `imap_login` and what it calls (`M_Login`) over the reader of M_Imap; server and TLS handshake are arbitrary parameters | every request is logged with its answer (`S_Login.event`); the log is shown to be one of the conversations `S_Login` describes; an invariant says that every word the program acts on is contained in what came in; refuted by concrete servers: password in the clear after a refused STARTTLS, bytes added before the handshake, certificates for `*` or with a NUL, a server that says nothing |
| C121 | `imap_ll_write` (`M_Write`): one round of poll and write after the other, their results an arbitrary list | induction over the rounds; progress by counting the rounds that take something |
| C122 | `imap_ll_logout` (`M_Write`) | safety of the reader (C91) and reading back of what is sent |
| C123 | clearing, copying and appending (`M_Imap`) with any server as in `S_Deliver` | one command after another; what the program thinks is open and what the server has open are kept in step |
| C124 | `imap_append_new_message` when the folder is missing | refuted for every such server: selecting fails first, so nothing is created |
| C125 | the refilling of the buffer in `imap_ll_waitline` (`M_Read`): rounds of poll and read, or of SSL_read and poll, their results an arbitrary list | reading bytes one after the other does not depend on where they are cut; the TLS loop is shown to be the other one with its rounds renamed |
| C126 | the FT_IMAP branch of `do_search` (`M_ImapOut`), over the index file as it was written, the disc of `M_Output` and the server of `M_Imap` | each result is shown to be one copying or appending of C123 |
| C127 | the same; `get_validated_mbox_msg` sets the length before it compares checksums, and its NULL is not looked at | refuted twice: bytes copied from NULL for a changed message, an empty letter for a mailbox that is gone |
| C128 | `imap_ll_build`, `imap_ll_append` and their calls (`M_CmdBuild`): a cursor with its ancestors | induction over how a tree is given as arguments (`S_CmdBuild`); it justifies the commands that `M_Imap` and `M_Login` write down directly |
| C129 | the excerpt format, search.c 1212-1282 (`M_Excerpt`), with the parser of `M_Rfc822`; the date as text and fetching a mail from a server are parameters, the parser sees a mailbox message without the bytes after it | induction over the results, C33's lemmas on validated messages and places; the fields as a relation (`S_Excerpt`). That each mail can be parsed is a hypothesis (`parses`) |

## How to read seeded/LOG.jsonl

Each line is one textual edit of one model definition in a scratch copy, followed by a rebuild.

- `first_failures`: the lemmas whose proofs stopped compiling.
- `theorems_failed`: property theorems that use one of those lemmas, directly or through others, found
  by following names through each file's imports. They no longer build. That is weaker than being
  false: a broken lemma also takes down theorems whose claim the edit leaves true (for example, an
  edit to how `**` is compiled stops `C29_glob_defined_partial` building although it still holds). The
  claim the edit was aimed at is in `claim_broken`.
- An empty `theorems_failed` is a survivor; its `note` says why.

Correction: lines 1-34 were first committed with a list made by matching bare names across all files.
That wrongly listed `C06_loading_terminates` for several edits of M_Encoding and M_TokTable, and named the
wrong definition for one edit of M_DbFile. These lines have been recomputed. Line 1 counted a timeout
as a failure of four theorems; it now lists only C01, which a computation in the edited model refutes.
Lists are of the theorems that existed when the edit was tried.
