# Formal model of fpga-assembler in Rocq/Coq — design and trusted base

Everything is in `rocq/theories` (logical name `Verif`), Coq 8.16.1, standard library only.
`properties.jsonl` is the list of claims C01–C119, `MANIFEST.json` says which theorems prove each
(generated by `tools/manifest.py` from the theorem names `Cnn_...` of the files `P_*.v`).

## 1. Technique

* The C++ is rewritten function by function as small total Gallina functions over `list`, `N`, `Z`,
  `option`. Every definition of a model file cites the file and lines it models.
* Fixed-width arithmetic is explicit: `u8 u16 u32 u64` (truncation), `i32`, wrap-around of
  subtractions written out. Bytes are `ascii` (text) or `N` (binary data).
* A function that can end other than by returning gives an `outcome`: `Ok x`; `Err` (an error status);
  `Crash` (CHECK, assert, RAPIDJSON_ASSERT, uncaught exception); `UB` (undefined behaviour: reading
  outside a buffer, shifting too far, writing outside an array, signed overflow); `NoFuel` (the loop
  did not end within the fuel given). So absence of crashes, of undefined behaviour and termination are
  themselves theorems, and so is their presence where the code has the defect.
* Loops without structural measure take `fuel : nat`; "terminates" is "some fuel suffices (and any
  larger gives the same)", "runs for ever" is "no fuel suffices".
* What the program does not determine is an argument the theorems quantify over: iteration order of
  hash containers built during a run (record `orders`), results of `std::sort`/`std::partition` on
  equal elements (`PartList.v`), the file system and the JSON text parser (record `environment`), clock,
  standard input, kind of output stream (`stream`), feature callback of the FASM parser (any function of
  the whole history of calls), and the meaning of over-long shifts (`shift_model`: `Iso` undefined,
  `Hw` modulo 64).
* Each property is stated against a separate `*Spec.v` file that does not use the model's functions
  (only its record types): what a FASM text means, what a database file says, which frames a device
  has, what a container is. Proofs are inductions over loops, invariants and refinements to these
  specifications. Concrete instances below each theorem (Examples, `vm_compute`) show that its
  hypotheses are met by a non-trivial case.
* Where the natural expectation about the code is false, the property states what the code really
  does, and a theorem `..._refuted` gives a counterexample to the expectation. These are defects of
  the program, listed in section 6.

## 2. Files

| layer | code | model | specification | facts | theorems |
|---|---|---|---|---|---|
| containers, outcomes | absl btree_map, flat_hash_map/set | Base | | BaseFacts, MapFacts | |
| bit operations | xilinx/bit-ops.h | BitOps | (in statement) | BitOpsFacts | P_Frame |
| frame address, ECC, CRC | arch-xc7-frame.{h,cc} | Frame | EccSpec, CrcSpec, EccCodeSpec | FrameFacts, EccFacts, CrcFacts | P_Frame, P_Crc, P_EccCode |
| part, walk | arch-xc7-part.{h,cc} | Part, PartList | PartSpec, PartListSpec | PartFacts, PartFromFacts | P_Part, P_Part2, P_PartList |
| frame completion | frames.h | Frames | PartSpec | FramesFacts | P_Part, P_Part2 |
| packets | configuration-packet.h, arch-xc7-configuration-packet.{h,cc} | Packet | (in statement) | PacketFacts | P_Packet |
| configuration | configuration.{h,cc} | Config | ConfigSpec, DecodeSpec | ConfigFacts | P_Bitstream, P_Decode |
| writer | bitstream-writer.{h,cc} | Writer | ContainerSpec | WriterFacts | P_Packet, P_Bitstream, P_Bitstream2 |
| reader, spans | bitstream-reader.h, big-endian-span.h | Reader, BigEndian | ContainerSpec, BigEndianSpec | ReaderFacts | P_Packet, P_Span |
| encoder | bitstream.h | Encode | EncodeSpec | EncodeFacts | P_Bitstream, P_Bitstream2 |
| printing | PrintHeader etc., operator<< | Print | PrintSpec | | P_Print |
| FASM parser | fasm-parser.h | Fasm | FasmSpec | FasmFacts/Safe/Shape/File/Lines/Wrap/Skip | P_Fasm |
| strings, numbers | absl strings, libc strtol | Absl | DbSpec | MapFacts, DbFacts, JsonFacts2 | P_Database, P_Database3 |
| database text files | database-parsers.cc | DbText | DbSpec | DbFacts, YamlFacts | P_Database, P_Database2 |
| database JSON files | database-parsers.cc | DbJson | JsonSpec | JsonFacts, JsonFacts2, OrderFacts | P_Database3 |
| database | database.{h,cc}, memory-mapped-file.cc | Database | AsmSpec, LoadSpec | LookupFacts, RegistryFacts, LoadFacts | P_Lookup, P_Database4 |
| assembler, main | assembler.cc | Assembler | AsmSpec, EndSpec, SameSpec, ResultSpec, RefuseSpec, PlaceSpec | AsmFacts, ProcessFacts, ProcessCrash, OutcomeFacts, StepdownFacts, AsmLines, AsmWhole, AsmItems, EndFacts, SameFacts, ResultFacts, PlaceFacts | P_Assembler, P_Assembler2–4, P_Implied, P_Main, P_Main2, P_EndToEnd, P_Repro, P_Result, P_Refuse, P_Equiv, P_Place |
| messages of the FASM parser | fasm-parser.h, assembler.cc | FasmLog, AsmLog | MessageSpec | MessageFacts | P_Messages |
| messages of the program | assembler.cc main, AssembleFrames | MainLog | MainLogSpec | MainLogFacts, NoErrFacts | P_MainLog |
| the output byte by byte, interrupted or full device | bitstream-writer.h, bitstream.h, assembler.cc main | Device | DeviceSpec | DeviceFacts, CutFacts | P_Device, P_Cut |
| what a change reaches | (no new code) | | LocalSpec | | P_Local |
| the clock and its texts | bitstream-writer.h:212-217 (absl::Now, FormatTime) | Clock | ClockSpec | ClockFacts | P_Clock |
| the files a run opens | database.cc:78-130, 248-357, assembler.cc:92-150, 260-295, 375-453 (calls of MemoryMapFile) | Opens | OpensSpec | OpensFacts, OpensFacts2 | P_Opens |
| the descriptors and mappings a run holds (open, mmap, close, munmap; fstat and the descriptors of the directory iterator left out) | memory-mapped-file.cc:20-49, database.cc:92-130, 248-357 | Maps | MapsSpec | | P_Maps |
| the templates for UltraScale and UltraScale+ | arch-types.h, arch-xc7-frame.h:29-46, frames.h:52-63, configuration.h:61-225, bitstream-writer.cc:12-33, bitstream-writer.h | Arch | ArchSpec | ArchFacts | P_Arch |
| cached clang-tidy | scripts/run-clang-tidy-cached.cc | Tidy (texts, keys, report), TidyPool (threads, processes, files) | TidySpec | TidyFacts, TidyInv, TidyRun, TidyKeyFacts, TidyReportFacts | P_TidyPool, P_TidyKey, P_TidyReport |
| the messages of the loader | database-parsers.cc:40-399, 405-439, 601-656, 696-836, database.cc:92-118, 204-246, 282-357, memory-mapped-file.cc:34-40 | LoadLog | LoadLogSpec | LoadLogFacts, LoadLogTrue, LoadLogTrue2, LoadLogTrue3, LoadLogRefute | P_LoadLog |
| the receiving device (environment, from UG470, nothing of /repo) | – | – | FpgaSpec | FpgaFacts, FpgaFacts2, FpgaFacts3, FpgaFacts4 | P_Fpga, P_Fpga2 |
| its command line, cache directory, path clean-up, start | scripts/run-clang-tidy-cached.cc:182-200, 244-264, 293-295, 326-370, 405-421, 573-608 | TidyCmd | TidyCmdSpec | TidyCmdFacts | P_TidyCmd |
| the report files and links | run-clang-tidy-cached.cc:172-180, 505-564, 616-621 | TidyOut | TidyOutSpec | – | P_TidyOut |
| the files opened, while they are replaced | memory-mapped-file.cc:33-52, database.cc, assembler.cc | Opens | SnapSpec | SnapFacts | P_Snapshot |
| an input that ends early | assembler.cc:260-295, 421-460 | Assembler, Fasm | ResultSpec, EndSpec | AsmLines | P_Input |
| where reports stand in the text | fasm-parser.h:60-64, 174-425 | Fasm | FasmTextSpec | AsmLines, FasmShape | P_FasmText |
| what a refusing consumer is shown | fasm-parser.h:80-425 | Fasm | ConsumerSpec | – | P_Consumer |
| newer editions of a database | database.cc, database-parsers.cc, assembler.cc | Database, DbText, Assembler | GrowthSpec | EndFacts | P_Growth |
| features that contradict each other | assembler.cc:260-420 | Assembler | ConflictSpec | – | P_Conflict |
| how a design is spelled | assembler.cc:260-420, fasm-parser.h | Assembler, Fasm | SpellSpec | AsmItems | P_Spelling |
| what a disassembler reads in a bitstream, and assembling that again | assembler.cc:260-420 | Assembler | DisasmSpec | – | P_Disasm |
| the same database at another place, in another order, under another part name | database.cc:20-300, database-parsers.cc | Assembler, Database | RewriteSpec | – | P_Rewrite |
| two designs in one text | assembler.cc:AssembleFrames | Assembler | MergeSpec | – | P_Merge |
| some lines of a text | assembler.cc:AssembleFrames | Assembler | DropSpec, MergeSpec | – | P_Drop |
| the lines of a text, one by one | assembler.cc:AssembleFrames | Assembler | BisectSpec | – | P_Bisect |
| the payload of any map of frames | configuration.h:61-95 | Config | (in statement: ends_row) | – | P_Rows |

`P_Part3.v` and `P_Packet2.v` extend P_Part (addresses with any high bits) and P_Packet (any header without the sync word);
`P_Cases.v` has C65 for every destination and concrete cases of seven theorems.

`AsmExample.v` holds a small concrete database used by the instances. `RepoTests.v`, `RepoTests2.v` replay the unit tests
of the repository on the model (section 7).

## 3. Property by property

| id | what is modelled | how it is proved |
|---|---|---|
| C01 | the mask, clear and set operations for any word width | testbit extensionality |
| C02, C03 | the five fields of an address | arithmetic normal form of the packed word; lexicographic order from it |
| C04, C05 | ECC of a frame, its update | the code as an xor of per-position syndromes (linearity), syndromes injective with odd parity bit |
| C06 | the 37-step CRC register | linearity; invertibility of one step; induction over the history |
| C07–C09 | GetNextFrameAddress of a part built from part.json | case analysis of the walk against the described frames (PartSpec); induction on the set of frames still ahead |
| C10, C11 | the completion of a frame set | invariant of the loop; a measure for termination, an invariant for divergence |
| C12, C13 | payload and packet program | induction over the frame map, complete or any map of frames of the device (P_Rows); the program is computed once with the payload symbolic, also word by word |
| C14, C15 | packet header and parser | field laws; suffix invariant of the parse |
| C16 | the writer's nested iterators | iterator state as a position in the word list; induction |
| C17–C19 | header, patching of the length through the stream model | byte lists; case analysis on the stream kind |
| C20, C21 | sync search, whole words | search invariant; out-of-bounds exactly for other lengths |
| C22–C25 | writer then reader, encoder then decoder | composition of the above with a replay invariant of the decoder over the payload |
| C26, C27 | decoder of any packets | invariant over the packet list |
| C28 | encoder on permuted inputs | the btree map is determined by the finite map |
| C29 | ECC of emitted frames | from C23 and C04 |
| C30–C39 | the FASM parser on all texts | grammar (FasmSpec) with printer; forward simulation, inversion (accepted lines are in the grammar), suffix/extension lemmas; C38 for every consumer by comparing its run, stage by stage, with that of a consumer that refuses nothing |
| C40–C46, C52, C63, C67 | AssembleFrames | invariant "set bits = bits of the processed features"; classification of all outcomes |
| C47, C48 | ConfigBits and its cache | the callback arguments computed purely; cache invariant |
| C49 | the bank registry | invariant of the two maps over the tables |
| C50, C51, C64, C66 | implied features, aliases | refinement of the two passes to AsmSpec |
| C53–C58 | text files of the database | grammar of lines; soundness and completeness of each line parser |
| C59–C61, C68 | JSON readers on any JSON value | inductive "describes" relations, proved equivalent to acceptance |
| C62, C65 | main | composition, case analysis on the exit |
| C69, C70 | loading a directory | LoadSpec: which file feeds which datum |
| C71 | files + FASM text to output bytes | composition of all of the above (EndSpec) |
| C72 | Part(idcode, first, last) | grouping invariant for any correct sort and partition |
| C73 | BigEndianSpan for any word size | arithmetic of base-256 numbers |
| C74, C75 | printed text | digits of base 16 and 10; unique readability |
| C76 | InitWithPackets on any packet history | the register state and FDRI placement described independently (DecodeSpec); invariant over the history |
| C77 | the whole program under two iteration orders | the two loaded databases are related entry by entry (SameSpec); every observation transfers along the relation |
| C78 | the exit status for every text | ResultSpec: seven mutually exclusive cases over files and text; totality and agreement with `main_program` |
| C79 | refused commands and directories | RefuseSpec; the reader relations of C59/C61/C68/C69 composed over PartDatabase::Parse |
| C80 | what the FASM parser prints, and what fpga-as prints while reading | FasmLog models the parser with its fprintf calls; erasing them gives the parser of C30–C40; MessageSpec reads a message's line and severity |
| C81 | two runs on one database | C71 for both runs; the frames determine and are determined by the bytes (decoding, extensionality); header fields are injective |
| C82 | the CRC against polynomial division | CrcSpec: polynomials over GF(2) as numbers, congruence, the wire order of the bits; one register step doubles and reduces; induction over the wire. Detection: the polynomial is odd and of degree 32 (bursts), divisible by x+1 (parity), and x has order 2^31-1, a prime, modulo it (two flips) |
| C83 | the frame check bits against an extended Hamming code | EccCodeSpec: code positions and code words; a frame is the sum of its set bits, the syndrome is linear, and the syndrome of each of the 3232 single bits is evaluated |
| C84 | the worker threads of the cached clang-tidy | TidyPool: a transition system over a file system with inodes, processes, threads and their clang-tidy children, with kills; one invariant over all reachable states (temporary files are private, sealed inodes are never written), a measure for termination |
| C85 | the cache entries in the same system | the invariant: an entry is an old one or a whole result; sealed inodes stay as they are |
| C86 | two runs in a row, the exit status | the work list of the second run against the invariant; the report of C89 over the entries |
| C87 | keys and work list | TidySpec: include directives, base names and keys as relations; exclusive or as a commutative group |
| C88 | the output filter | TidySpec: `about`, `belongs`; the regular expression as a matcher proved against it; induction over lines |
| C89 | the report | TidySpec: `counted`; the regex iterator by strong induction over the text; sortedness and counts of the map |
| C90 | the bytes of the file of a successful run | PlaceSpec: `frame_place`, `byte_place` from the frames of the device alone; C71 gives the file, then positions in payload, words and header by induction over the frames |
| C91 | what a run writes to stderr | MainLog: main, AssembleFrames and the reading loop with their messages; MainLogSpec `complaint`: the reasons to refuse, in order, with the text for each; erasing the messages gives the old model, and `complaint` is a function, so the messages are the ones of the first reason |
| C92 | every prefix of the file of a successful run, read back | CutFacts: searching the sync word, splitting into words and interpreting packets commute with cutting; the frames appear when the whole FDRI payload is there (a packet that is cut short is dropped) |
| C93 | the bytes and seeks of a run, in order | Device: the output of Writer/Encode/Assembler at the level of single bytes with a log of operations; without a limit equal to the old model (`C93_same_run`); every prefix of the log gives a file described by DeviceSpec |
| C94 | a device with room for r bytes | Device with `d_room`: a byte without room sets badbit and the stream ignores the rest; main does not look |
| C95 | the date and time in the header | Clock: civil-from-days arithmetic and the two FormatTime patterns; ClockSpec iterates a one-second tick of the calendar from the epoch; induction over the seconds; C95_only_the_clock: two clocks, same run |
| C96 | the database files a run opens | Opens lists the calls of open in order, next to the functions that make them; induction over the features with the cache as the invariant (each type is asked for once); agreement of two environments on the opened files gives the same run |
| C97 | locality of a change | from C90: a byte that differs is the place of a bit on which the designs disagree; the tile of the feature that sets it has a changed feature, or its bank has a changed STEPDOWN (case analysis of the implied features) |
| C98 | descriptors and mappings held | Maps lists open/mmap/close/munmap calls by scope; every prefix of the list is a legal history of a small kernel model (MapsSpec) that never holds more than one descriptor and two mappings; induction over the features for the tile types |
| C99 | the three architectures | the functions of Frames, Config and Writer with the words of a frame and the writer header as parameters, equal to those at kXC7; round trip through file, reader and decoder for any register program around the frame data |
| C100 | the shell command | TidyCmdSpec holds a small POSIX shell (words, apostrophes, redirections; everything else refused); the command is read by it piece by piece |
| C101 | the cache directory | the first number after "version " as a relation, injectivity of the name from its end, exclusive or modulo 2^32; argument texts are injective because the shell reads them back |
| C102 | paths in the output | lines, roots and "./" as relations; the regular expression as a matcher proved against them, induction over the lines |
| C103 | the start and the workers | the conditions of main(), atoi, and C86 for the run that follows |
| C104 | the messages of a failed load | LoadLog: the loader with the text of every absl::Status; leaving the texts out gives Database.v; LoadLogSpec `explains`: for each text the fault of the files it states; true (every text said has its fault) and refuted (no directory with the fault is loadable) are proved separately |
| C105 | the device runs the design | FpgaSpec: a byte-wide Series-7 configuration port (sync word, packets, registers, frame buffer, IDCODE, checksum, start-up) written from UG470; the file is followed through it: header asleep, register program symbolically, frame data by induction over the rows with their dummy frames, tail; then C90 for the bits |
| C106 | a transfer that stops | the same with a prefix: induction over the frame data gives the frames stored after j words; the fixed parts are enumerated |
| C107 | no damage of frame data is noticed | the same with arbitrary frame data: no CRC word is ever written, so the result does not depend on the checksum function; refutation by the demo file with one bit flipped |
| C108 | the report files | TidyOut: CreateReport on files (TidyPool), links and names that cannot be used; paths are told apart by their shape, rows read back from the end of the line |
| C109 | files replaced during a run | causality of Opens: two directories give the same opens up to and with the first file on which they differ (same composition as C96's agreement); the explaining directory is built file after file, the number of files is bounded by the walk, no file is opened twice; refutation by a run whose IDCODE is old and whose bits are new |
| C110 | an input that ends early | inside a line: all lines before were accepted, the last one has no newline (C35), so AssembleFrames fails before any database lookup; between lines: the case analysis of C78 for both texts, coverage is monotone in the features except for implied STEPDOWNs; refutation by the demo input cut after two lines |
| C111 | what the FASM parser reports stands in the text | each stage of a line returns a suffix of its input and the events it adds (induction over annotations, words, lines); a budget (events + text left ≤ text) bounds the number of calls; line numbers by the same induction; per-line form from the locality of good lines (C30) |
| C112 | newer editions of the database | what is covered in the old is covered in the new edition and by the same segment bits, so the result follows from C71 (coverage suffices) and the equality of the sets of bits shown; appended lines: the content of a file with added lines is the union of the contents; refutation by the demo database with one pseudo pip line more |
| C113 | features read back; contradictions | from the decoded frames of C71/C77: a bit is 1 iff some feature of the design sets it; satisfaction of all features is then equivalent to the absence of contradictions; refutation by the demo database with two features on one bit |
| C114 | only the bits matter | reported values never exceed their width (invariant over the parse), so a feature that enables nothing is not 'used'; implied features, package lookups, coverage and bits shown then depend only on the set of (name, bit) pairs; equality of files as in C112; single-bit lines through the grammar of C37/C43 |
| C115 | disassembly reassembles | the features that fit the decoded frames and include all that show up set exactly the bits of the design: one inclusion from C113 (each feature of the design is satisfied), the other from completeness; implied STEPDOWNs agree because banks, tags and used sites do; then C71 and equality of files as in C114. The condition on the sites is needed: refuted without it in the demo database with one more feature of cleared bits |
| C116 | only what the database says matters | features mean the same bits in two directories whose grid, part and tile types have the same entries in any order; hence coverage, the implied features and the bits shown agree, and the file follows from C71 and the equality of files as in C112. Re-ordered JSON: induction over `reordered` along the documented form of the grid and of the part (objects that number their members can only be the same list); re-ordered lines: without repeated entries the map read does not depend on the order. Refuted with a repeated entry: the first one counts |
| C117 | designs accepted separately are accepted together | an accepted text ends with a newline (C35), so the features of the joined text are those of the two; stepping down, use of a site, and coverage distribute over the union of the designs, and an implied feature of the union is implied by one of the two; acceptance is then C71 for any reading, and the bits follow from the decoding of the three runs (`run_decodes`). The exact sum is refuted with the demonstration database |
| C118 | lines taken away from an accepted design | the features of the rest are among those of the whole; if no IO site of a bank that still steps down falls out of use, what the rest implies is implied by the whole, so coverage is inherited and acceptance is C71 for any reading; bits from the decoding of both runs, and a lost implied feature goes back to the feature that asked for STEPDOWN. Without the side condition refuted with an edited demonstration database (the program crashes) |
| C119 | acceptance line by line | induction over the lines with the joining of C117; the converse without STEPDOWN from C118, whose side condition is then empty; with STEPDOWN refuted with an edited demonstration database |

Nothing is declared not applicable: no claim is outside the model.

## 4. Trusted base

* Coq's kernel (8.16.1) and its checker; `vm_compute` is used for closed computations (tables,
  concrete instances), `native_compute` is not used.
* `Print Assumptions` answers "Closed under the global context" for **every** theorem named in
  MANIFEST.json: no axiom at all, not even of the standard library, is used. (coqchk, which lists what
  loaded library files contain, mentions the `Under_rel` constants of the ssr plugin that Coq's
  standard prelude files declare; no theorem depends on them.)
* No functor, module type, section-less variable, Admitted or disabled check.
* The reading of the C++ into the model, i.e. that the cited lines do what the definitions say. It is
  checked by nothing but reading. It includes the assumptions:
  - library behaviour from documentation: absl (`StrSplit`, `MaxSplits`, `SimpleAtoi`, `StrJoin`,
    `StrContains`, strip functions, `StrFormat("%d")`), libc (`strtol` as in C17: no `0b` prefix, `getline`, `isspace`/`tolower` in the C locale,
    printf), iostreams (seek and tell, append mode), `std::filesystem`, `mmap` (zero filled to the page
    end, page size 4096), `std::map`/btree iteration in key order;
  - rapidjson's text parser is *not* modelled: it is an arbitrary function from text to an optional
    JSON value (`e_json`), and theorems speak about the value;
  - plain `char` is signed, `int` 32 bits, `long` 64 bits, little details of x86-64 Linux;
  - `assert`/RAPIDJSON_ASSERT are active (they abort); with NDEBUG those cases would be undefined;
  - memory never runs out; I/O errors other than "cannot be opened" and (Device.v, C94) a full output device do not occur; files are
    regular and do not change during a run (C109: except that a whole file may be replaced by another between two opens); a read error or the death of the writer of a pipe is the end of the input text (getline returns -1 for both, C110); buffers of iostreams and stdio delay writes but keep their order (C93);
  - inputs are shorter than 2^31 where the C++ stores lengths in `int` (line indentation in YAML only;
    line numbers wrap as in the code).
* For C105–C107 only: FpgaSpec, the reading of the Series-7 configuration guide (UG470) as a state machine. It models the
  environment and nothing of /repo; the checksum function is a parameter, so those theorems hold for any. Readback,
  encryption, compression (MFWR), multi-boot and timing are left out; the program's output uses none of them.

## 5. What is modelled and what is not

Modelled: all functions of the files in section 2 that take part in `fpga-as`, plus the decoder, the
address-list constructors, the spans and the textual output that only library users call.

Containers: `absl::btree_map` is a strictly sorted association list; `flat_hash_map`/`set` are
duplicate-free association lists. Every iteration over a hash container goes through an oracle: the
record `orders` for the containers the assembler builds itself, and `load_orders` (field `o_load`) for
those filled by the database readers (tile types, tile grid, bits of a tile, pin functions, sites of
a tile, I/O banks, block types of a row). An oracle is any function; theorems assume `good_orders`,
i.e. that it returns a permutation of its argument.

Not modelled:
* messages: the FASM parser's and the ones of `main` and `AssembleFrames` are modelled; those of the database loader too (LoadLog), except the texts made by libraries: ValueAsString of a JSON value, rapidjson's parse error, strerror, the status of a failed open; the messages about tile-type files (database-parsers.cc:435-556), which the program drops, are not; the warnings of directory iterators are left out; elsewhere only *that* an error is returned;
* `--help`/flag parsing by absl (the model starts from the parsed flags and positional arguments);
* `database.cc` mask and json paths of a tile type: stored but never read;
* per-entry errors of the recursive directory iterator;
* `Frames::AddFrame` (frames.h:29-32): never called, ill formed if instantiated;
* `operator<<` of `ConfigurationPacket` (configuration-packet.h): uses enumerators that do not exist, never
  instantiated; the `#if 0` code of assembler.cc; `bistream-writer.h`, a stray duplicate of
  bitstream-writer.h included by nothing; for the UltraScale architectures (Arch.v) only the templates that exist: there is no
  CreateConfigurationPackage and no ECC for them;
* of `scripts/run-clang-tidy-cached.cc`: the progress output, roots with
  characters special in regular expressions other than dots (`repair` answers None), `revisit_brokenfiles_if_build_config_newer`
  (a constant `false`). `std::hash` is an arbitrary function, clang-tidy's output an arbitrary function of process and item; the
  theorems on the pool (C84–C86) hold for any path clean-up, TidyCmd.v models the one there is.
  Reading a file is one atomic step; process ids consist of digits and are not reused; a file system without power loss
  (no fsync semantics); the sources do not change during a run; the queue operations under the mutex are atomic;
* tests and build files.

## 6. Defects of the program that the theorems exhibit

Each is a theorem, not a remark: C08 (CFG_CLB buses are filed under the wrong block type; the unused high bits of an
address are not checked), C11
(descriptions with row 32 or column 1024 loop for ever), C14/C18 (over-long packet and header fields are
written truncated without error), C19 (containers written to pipes or appended carry length 0), C21 (truncated
bitstreams are over-read), C22 (a sync word in a header text misleads the reader), C25 (foreign frames shift
device frames), C29 (ECC is not computed), C30/C34 (a line ending in a single quote makes the FASM parser leave
the line or the buffer; widths 0 and above 64 shift too far), C36/C37 (wide values with missing leading digits and
overflowing numbers are misread silently), C38 (refusal does not stop the parse), C39 (an annotation value ending in an escaped backslash is not recognised), C57 (page-sized files are over-read),
C60 (unparsable base addresses read as 0), C61 (malformed JSON aborts), C63 (inverted ranges dropped),
C64 (alias site maps never apply to dotted remainders), C66 (STEPDOWN only in the third component), C67 (segment bits
beyond word 100 are written outside the frame), C70 (malformed tile-type files are silently ignored), C80 (every message about the
input of fpga-as names line 1, because the tool hands the parser one line at a time), C92 (a truncated file is read as a bitstream
without frames, not as an error), C94 (a full device is not noticed: status 0 with a truncated file), and for the cached clang-tidy: C84/C85 (two equal
files of the same name share temporary file and entry: the process can abort, or publish an empty entry that later runs believe),
C86 (a run whose clang-tidy was interrupted exits 0), C87 (a header included twice, or twin headers, changed without being noticed),
C88 (a complaint that mentions another place is attributed to that file and dropped), C89 (adjacent complaints are undercounted), C100 (a source file with an apostrophe in its name is silently skipped), C102 (a dot in the
project's directory name matches any character), C103 (no workers if the number of processors is unknown), C108 (a summary file that cannot be opened: undefined behaviour). For the database: C104 (the messages do not say which file is at fault; a fault of
devices.yaml is reported as one of "parts yaml"). For the device: C107 (the output has no CRC: damage to the frame data is accepted silently). For concurrent updates: C109 (a run during an update of the database can end with status 0 and an output of half the old and half the new database). For the input: C110 (an input cut between two lines gives status 0 and a bitstream of part of the design). For the design: C113 (a feature that sets a bit another one clears: accepted, status 0). For the database: C112 (a pseudo pip line for a name with segment bits hides these, silently), C116 (of two lines for the same (name, bit) the first counts, silently). For round trips: C115 (a site used only through features whose bits are all 0 does not show in the frames; a disassembly of the bitstream, assembled again, gets STEPDOWN there and is another bitstream).

## 7. Testing the theorems

`seeded/mutants*.py` list wrong programs: each edits one definition of the model as a realistic bug
would and names the claims that become false. `tools/mutate.py` applies one edit to a scratch copy, rebuilds, replaces
every proof that no longer checks by Admitted *in the scratch copy*, and lists the theorems of the claim that
now rest on a broken proof. `seeded/LOG.jsonl` has one line per attempt, with the theorems that were
tightened when a claim survived.

`tools/automutate.py` generates edits mechanically (a flipped comparison, a number changed by one, swapped
arguments, a dropped update) over all the definitions of the model and reports those that break no proof.

**Fidelity of the model.** `RepoTests.v` and `RepoTests2.v` replay the repository's own unit tests (frame, part,
configuration packets, ECC, CRC, reader, writer, FASM parser, database, database parsers) on the model: what
the C++ tests expect of the program, the model computes. These are tests of the model, not of the claims, and no theorem
rests on them. Besides, `decode` (C05's reader and configuration) was extracted to OCaml in a scratch directory and run on the
Vivado files of fpga/xilinx/testdata: xc7-configuration.bit and .debug.bit decode to the same 5408 frames, as
configuration_test.cc expects; the model's ECC agrees with the 228 non-zero frames of the file and its CRC with both
CRC checks of it. Nothing of the extraction is part of the development.
