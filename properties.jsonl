{"id": "C01", "title": "Bit-field write/read law", "statement": "Writing a value into bits [top:bottom] of an unsigned word and reading the same range back returns the value truncated to the width of the range, and no bit outside the range changes.", "quantifier": "every word, every value, every range 0<=bottom<=top<width", "why_tests_cant": "a test samples a few ranges; the law is about all 2^32 words times all ranges", "anchors": ["fpga/xilinx/bit-ops.h:bit_field_set", "fpga/xilinx/bit-ops.h:bit_field_get"]}
{"id": "C02", "title": "Frame address packs and unpacks", "statement": "Building a frame address from (block type, bottom-half flag, row, column, minor) and reading the five fields back returns the same five values; distinct tuples give distinct 32-bit addresses and bits 31..26 are zero.", "quantifier": "every tuple with block type 0..7, row<32, column<1024, minor<128", "why_tests_cant": "2^26 tuples, and injectivity quantifies over pairs of them", "anchors": ["fpga/xilinx/arch-xc7-frame.h:FrameAddress", "fpga/xilinx/arch-xc7-frame.cc"]}
{"id": "C03", "title": "Frame address order", "statement": "Comparing two frame addresses as integers is the same as comparing (block type, half, row, column, minor) lexicographically, so an address-ordered map visits frames block by block, top half before bottom, row by row, column by column.", "quantifier": "every pair of in-range address tuples", "why_tests_cant": "quantifies over all pairs of addresses", "anchors": ["fpga/xilinx/arch-xc7-frame.h:operator<"]}
{"id": "C04", "title": "Frame ECC update is local, stable and self-consistent", "statement": "Updating the ECC of a 101-word frame changes only the low 13 bits of word 50, doing it twice is the same as doing it once, and the code recomputed from the updated frame equals the stored one.", "quantifier": "every frame of 101 32-bit words", "why_tests_cant": "2^3232 frames", "anchors": ["fpga/xilinx/arch-xc7-frame.cc:UpdateECC", "fpga/xilinx/arch-xc7-frame.cc:CalculateECC", "fpga/xilinx/arch-xc7-frame.h:ICAPECC"]}
{"id": "C05", "title": "Frame ECC locates single and detects double bit errors", "statement": "Flipping one payload bit of a frame changes the computed ECC by a nonzero, position-dependent syndrome, different for every position; flipping any two distinct payload bits always changes the computed ECC. For every frame whose ECC the library updated, a single flipped bit (check bits included) is located from the computed and the stored code, and two flipped bits are always detected.", "quantifier": "every frame and every one or two bit positions outside the 13 ECC bits", "why_tests_cant": "~5 million position pairs times all frames", "anchors": ["fpga/xilinx/arch-xc7-frame.cc:ICAPECC"]}
{"id": "C06", "title": "Configuration CRC step is linear and loses no information", "statement": "The CRC register update over (address, data, previous) is linear over xor, and for a fixed address/data is a bijection on the 32-bit register; consequently a register write that differs in any single bit of its data or address, after the same history, yields a different CRC and the difference survives every common continuation.", "quantifier": "all 5-bit addresses, 32-bit data words, previous CRCs, and all continuation histories", "why_tests_cant": "quantifies over all histories of register writes", "anchors": ["fpga/xilinx/arch-xc7-frame.h:ICAPCRC", "fpga/xilinx/arch-xc7-frame.cc"]}
{"id": "C07", "title": "Next-frame walk moves strictly forward", "statement": "For a part whose rows, columns and frame counts fit the address fields, the address returned by 'next frame' is always strictly greater than the one given, so walking a part never revisits an address and terminates.", "quantifier": "every well-formed part description and every valid address", "why_tests_cant": "all device geometries", "anchors": ["fpga/xilinx/arch-xc7-part.cc:GetNextFrameAddress"]}
{"id": "C08", "title": "Next-frame walk stays inside the device", "statement": "Any address returned by 'next frame' passes the validity test and names, in its low 26 bits, a frame of the device description that lies beyond the given one. The unused bits 31..26 of an address are ignored by the validity test and either kept or cleared by 'next frame', never changed otherwise (so 'a valid address has zero unused bits' is refuted).", "quantifier": "every part description whose rows, columns and frame counts fit the address fields, every 32-bit address", "why_tests_cant": "all geometries and all addresses, including invalid ones", "anchors": ["fpga/xilinx/arch-xc7-part.cc:GetNextFrameAddress", "fpga/xilinx/arch-xc7-part.cc:IsValidFrameAddress"]}
{"id": "C09", "title": "Next-frame walk misses no frame", "statement": "On a part whose rows, columns and frames are numbered without holes, walking from the first frame visits every valid frame of the device exactly once, in increasing address order.", "quantifier": "every gap-free well-formed part", "why_tests_cant": "completeness over all device geometries", "anchors": ["fpga/xilinx/arch-xc7-part.cc:GetNextFrameAddress", "fpga/xilinx/frames.h:AddMissingFrames"]}
{"id": "C10", "title": "Filling missing frames is conservative", "statement": "Completing a set of frames for a part keeps every given frame bit for bit, and every frame it adds is all-zero at an address reached by the part's walk; afterwards the address set is exactly the given ones plus the walked ones.", "quantifier": "every frame set and every part for which the walk terminates", "why_tests_cant": "all frame sets times all geometries", "anchors": ["fpga/xilinx/frames.h:AddMissingFrames"]}
{"id": "C11", "title": "When filling missing frames terminates", "statement": "Completing a set of frames with the frames the device has but the design does not mention returns for every part description whose frames are in rows 0..31 and columns 0..1023 (the ranges of the address fields), whatever else the description contains. For a description without holes it returns exactly then: a described frame in row 32 or column 1024 or beyond makes the program run for ever, since the loader does not check the ranges.", "quantifier": "every part description, every set of frames", "why_tests_cant": "non-termination cannot be observed by a test and depends on geometry", "anchors": ["fpga/xilinx/frames.h:AddMissingFrames", "fpga/xilinx/arch-xc7-part.cc:GetNextFrameAddress"]}
{"id": "C12", "title": "Frame payload layout", "statement": "The frame-data payload is, in address order, 101 words per frame, with exactly two zero frames after the last frame of each device row (a change of block type, half or row) and two more at the very end; for the complete set of frames that the encoder builds its length is 101*(frames + 2*row changes + 2).", "quantifier": "every frame map of the device's frames, complete or not, and every part without gaps", "why_tests_cant": "all maps and all geometries", "anchors": ["fpga/xilinx/configuration.h:CreateType2ConfigurationPacketData"]}
{"id": "C13", "title": "Configuration sequence is the fixed Series-7 recipe", "statement": "The emitted register-write program is a fixed sequence in which only the IDCODE value and the frame payload vary: CRC reset before data, IDCODE written before any frame data, one FAR=0 / WCFG / FDRI write carrying exactly the payload, then GRESTORE, LFRM, START, CRC reset, DESYNC last, in this order, and no CRC check word is written. Word by word the program is fixed too, including its NOP words; only the IDCODE word, the length in the type 2 header and the payload vary.", "quantifier": "every payload and every part idcode", "why_tests_cant": "must hold for every payload and part", "anchors": ["fpga/xilinx/configuration.cc:CreateConfigurationPackage"]}
{"id": "C14", "title": "Packet header encode/decode round trip", "statement": "Any type-1 or type-2 packet with an address below 2^5 (type 1) and a word count that fits its field (11 bits / 27 bits) is read back by the packet parser as the same opcode, register and data, leaving exactly the following words.", "quantifier": "every opcode, register, payload length and payload, and every continuation of the word stream", "why_tests_cant": "unbounded payloads and suffixes", "anchors": ["fpga/xilinx/arch-xc7-configuration-packet.cc:InitWithWordsImpl", "fpga/xilinx/bitstream-writer.cc"]}
{"id": "C15", "title": "Packet parser never over-reads and always progresses or stops", "statement": "Parsing one packet from a word stream returns a remainder that is a suffix of the input; the stream is either shortened or the parser reports no packet and the reader stops; iterating terminates and never reads past the end, for arbitrary word streams.", "quantifier": "every list of 32-bit words, including malformed ones", "why_tests_cant": "arbitrary adversarial input", "anchors": ["fpga/xilinx/arch-xc7-configuration-packet.cc:InitWithWordsImpl", "fpga/xilinx/bitstream-reader.h:iterator"]}
{"id": "C16", "title": "Word-stream writer is faithful", "statement": "The word stream produced by the writer's iterators is exactly the bus-width/sync header followed, for each packet in order, by its header word and its data words; nothing is skipped, repeated or reordered, including for empty packets and an empty package.", "quantifier": "every sequence of packets", "why_tests_cant": "the iterator is a state machine whose states depend on history", "anchors": ["fpga/xilinx/bitstream-writer.h:iterator", "fpga/xilinx/bitstream-writer.h:packet_iterator"]}
{"id": "C17", "title": "File container is well formed", "statement": "The .bit file consists of the fixed preamble, the 'a'..'d' length-prefixed NUL-terminated fields, then 'e' with a 4-byte big-endian length equal to the number of bytes that follow; every configuration word is big-endian.", "quantifier": "every package, part name, source name, generator and timestamp within 16/32-bit field lengths", "why_tests_cant": "all strings and packages", "anchors": ["fpga/xilinx/bitstream-writer.h:writeBitstream", "fpga/xilinx/bitstream-writer.h:create_header"]}
{"id": "C18", "title": "Header fields of any length", "statement": "The container header has the same shape whatever the length of the source name, part name, date and time: each text is preceded by two bytes that state its length plus one modulo 65536. They state the true length exactly when the text has at most 65534 bytes; the writer reports success also for longer ones.", "quantifier": "every package, every source, generator and part name, date and time", "why_tests_cant": "extreme sizes", "anchors": ["fpga/xilinx/bitstream-writer.h:create_header"]}
{"id": "C19", "title": "What reaches each kind of destination", "statement": "On a destination that can be rewound the container overwrites the bytes at the current position and carries the true data length; on a pipe the length field stays 0; on a file opened for appending the length field stays 0 and the length is added after the data; on a stream that already failed nothing is written. Success is reported in every case.", "quantifier": "every package and header, every output stream kind, position, previous content and failure state", "why_tests_cant": "depends on the OS object behind stdout", "anchors": ["fpga/xilinx/bitstream-writer.h:writeBitstream", "fpga/xilinx/bitstream.h:Encode", "fpga/assembler.cc:main"]}
{"id": "C20", "title": "Reader finds the sync word", "statement": "Reading a byte buffer succeeds iff the sync word AA995566 occurs in it, decoding starts right after its first occurrence whatever the preceding bytes, and the words are the big-endian words that follow.", "quantifier": "every byte buffer", "why_tests_cant": "all prefixes and buffers", "anchors": ["fpga/xilinx/bitstream-reader.h:InitWithBytes", "fpga/xilinx/big-endian-span.h"]}
{"id": "C21", "title": "Truncated input: exactly when reading is safe", "statement": "Reading a byte buffer stays in bounds exactly when it contains no sync word or the bytes after the first sync word are a whole number of 32-bit words; for every other buffer the reader reads out of bounds.", "quantifier": "every byte buffer", "why_tests_cant": "adversarial lengths", "anchors": ["fpga/xilinx/bitstream-reader.h:InitWithBytes", "fpga/xilinx/big-endian-span.h:BigEndianSpan"]}
{"id": "C22", "title": "Packets survive the file", "statement": "Reading back the file produced by the writer yields, in order, exactly the packets that were written (type, register, data), for every package whose packets fit their fields; the header texts may be any bytes at all as long as the header does not contain the sync word, and a header that does contain it misleads the reader.", "quantifier": "every package of valid packets and every header strings free of the sync pattern", "why_tests_cant": "unbounded sequences", "anchors": ["fpga/xilinx/bitstream-writer.h:writeBitstream", "fpga/xilinx/bitstream-reader.h:InitWithBytes", "fpga/xilinx/bitstream-reader.h:iterator"]}
{"id": "C23", "title": "Frames survive the whole encode/decode", "statement": "Encoding a set of frames for a part and decoding the resulting bytes for the same part returns exactly the given frames plus zero frames for every other frame of the part, each at its own address.", "quantifier": "every well-formed part and every frame set whose addresses belong to the part", "why_tests_cant": "all designs on all devices", "anchors": ["fpga/xilinx/bitstream.h:Encode", "fpga/xilinx/configuration.h:InitWithPackets", "fpga/xilinx/bitstream-reader.h"]}
{"id": "C24", "title": "Different designs give different bitstreams", "statement": "Two frame sets that differ in some bit of some frame of the part produce different output bytes (no configuration bit is lost).", "quantifier": "every pair of in-part frame sets", "why_tests_cant": "pairs of all designs", "anchors": ["fpga/xilinx/bitstream.h:Encode"]}
{"id": "C25", "title": "Frames outside the device", "statement": "Encoding a frame set with addresses that are not frames of the device succeeds. Every device frame below the least foreign address decodes to its own content, the device frame next above it decodes to the foreign frame's content instead of its own, and nothing is decoded at an address the device does not have.", "quantifier": "every usable device and every set of frames with 32-bit addresses", "why_tests_cant": "all out-of-range addresses", "anchors": ["fpga/xilinx/bitstream.h:Encode", "fpga/xilinx/frames.h:AddMissingFrames", "fpga/xilinx/configuration.h:CreateType2ConfigurationPacketData"]}
{"id": "C26", "title": "Decoder rejects foreign devices", "statement": "Decoding a configuration whose IDCODE write differs from the part's idcode yields no configuration at all.", "quantifier": "every packet sequence and part", "why_tests_cant": "all packet histories", "anchors": ["fpga/xilinx/configuration.h:InitWithPackets"]}
{"id": "C27", "title": "Decoded frames only at valid addresses", "statement": "Every frame the decoder returns is at an address obtained from a FAR write or the part's walk, and consists of consecutive words of one FDRI write, counted from a multiple of 101 words; only the last piece of a write may be shorter than 101 words, and no word of another write is ever mixed in.", "quantifier": "every packet sequence", "why_tests_cant": "all histories of packets", "anchors": ["fpga/xilinx/configuration.h:InitWithPackets"]}
{"id": "C28", "title": "Encoding is deterministic", "statement": "The output bytes depend only on the map from frame address to frame content, not on the iteration order of the hash map that holds it; the time stamp is the only other varying input.", "quantifier": "every iteration order of the frame map", "why_tests_cant": "hash iteration order is randomised per process", "anchors": ["fpga/xilinx/bitstream.h:Encode"]}
{"id": "C29", "title": "ECC of emitted frames", "statement": "The encoder does not compute frame ECC: a frame that comes out of the bitstream has a valid ECC exactly when the design does not mention it (it is zero) or the design's frame already had a valid one.", "quantifier": "every usable device, every design, every frame", "why_tests_cant": "all designs", "anchors": ["fpga/xilinx/arch-xc7-frame.cc:UpdateECC", "fpga/xilinx/frames.h", "fpga/xilinx/bitstream.h:Encode"]}
{"id": "C30", "title": "FASM lines are independent", "statement": "Parsing the concatenation of two newline-terminated FASM texts reports exactly the features of the first followed by those of the second with line numbers shifted, and the overall result is the worse of the two results, provided no line of the first text ends in a single quote (a based value cut before its base letter): such a line swallows the next one.", "quantifier": "every pair of texts in the defined-behaviour domain", "why_tests_cant": "all texts", "anchors": ["fpga/fasm-parser.h:Parse"]}
{"id": "C31", "title": "FASM feature denotation", "statement": "A well-formed feature line (name, optional [hi:lo], optional = value in any of the b/o/d/h/plain bases, optional comment) reports exactly one feature with the written name, start bit, width and value.", "quantifier": "every name, range up to 64 bits, width, base, value, spacing and trailing comment in the grammar", "why_tests_cant": "unbounded family of lines", "anchors": ["fpga/fasm-parser.h:Parse"]}
{"id": "C32", "title": "FASM comments and blanks are silent", "statement": "Lines that are empty, whitespace only or start with # report no feature and no error.", "quantifier": "every such text", "why_tests_cant": "all texts", "anchors": ["fpga/fasm-parser.h:Parse"]}
{"id": "C33", "title": "FASM result reports the worst problem", "statement": "The parse result is the maximum severity over all lines, is success only if every line was well formed, and never improves as more text follows.", "quantifier": "every text", "why_tests_cant": "all texts", "anchors": ["fpga/fasm-parser.h:Parse"]}
{"id": "C34", "title": "FASM parser memory safety", "statement": "The parser terminates on every text. On a newline-terminated text without a line ending in a single quote it never reads outside the text; and its mask shift is in range exactly when every reported width lies between 1 and 64 (otherwise the C++ is undefined).", "quantifier": "every byte string ending in newline", "why_tests_cant": "adversarial input", "anchors": ["fpga/fasm-parser.h:Parse", "fpga/fasm-parser.h:ParseNumber"]}
{"id": "C35", "title": "FASM text without final newline is rejected", "statement": "Non-empty text not ending in newline is rejected with an error before any feature is reported.", "quantifier": "every text", "why_tests_cant": "all texts", "anchors": ["fpga/fasm-parser.h:Parse"]}
{"id": "C36", "title": "FASM wide values are split without loss", "statement": "A feature wider than 64 bits written with as many hexadecimal or binary digits as fill its 64-bit chunks is reported as consecutive chunks from least to most significant, each starting where the previous stopped, whose values concatenate to the written number modulo 2^width. With fewer digits the value is misread.", "quantifier": "every width and digit string", "why_tests_cant": "widths up to 65536 bits", "anchors": ["fpga/fasm-parser.h:Parse"]}
{"id": "C37", "title": "FASM numbers wrap silently", "statement": "Bit indices are read modulo 2^16 and a value modulo 2^width, without any error; the only excesses reported are a decimal or octal value for a range above 64 bits (error) and a declared width above the width of the range (warning).", "quantifier": "every digit string", "why_tests_cant": "all magnitudes", "anchors": ["fpga/fasm-parser.h:ParseNumber"]}
{"id": "C38", "title": "FASM abort by consumer", "statement": "The rest of the text is reported whatever the consumer refuses: a consumer is shown what one that refuses nothing is shown, except that after it refused a piece of a line's feature the further pieces of that feature are left out. If it refused something the result is that of the unhindered parse or an abort, whichever is more severe; otherwise it is the same result.", "quantifier": "every text and every consumer", "why_tests_cant": "all histories of callbacks", "anchors": ["fpga/fasm-parser.h:Parse"]}
{"id": "C39", "title": "FASM annotations", "statement": "For a line with {name = \"value\"} annotations every annotation is reported once, in order, with its name and raw value (the quotes removed, escaped quotes kept as they are), whether or not a feature precedes it. A value that ends in an escaped backslash is the exception: its closing quote is taken for an escaped one, and if nothing else on the line ends the value the annotation is not reported and the line is an error.", "quantifier": "every annotation list; values may contain escaped double quotes", "why_tests_cant": "all texts", "anchors": ["fpga/fasm-parser.h:Parse"]}
{"id": "C40", "title": "Assembled bits are exactly the requested ones", "statement": "A bit of a frame is set in the result iff some enabled feature of the input (or an implied PUDC_B/STEPDOWN feature) has a non-negated segment bit mapping to that frame, word and bit.", "quantifier": "every database and feature list", "why_tests_cant": "all designs and databases", "anchors": ["fpga/assembler.cc:ProcessFasmFeatures", "fpga/database.cc:ConfigBits"]}
{"id": "C41", "title": "FASM order does not matter", "statement": "Permuting or repeating feature lines yields the same frames.", "quantifier": "every permutation of every feature list", "why_tests_cant": "factorially many orders", "anchors": ["fpga/assembler.cc:AssembleFrames", "fpga/assembler.cc:ProcessFasmFeatures"]}
{"id": "C42", "title": "Adding lines only adds bits, except implied STEPDOWNs", "statement": "A run on a file that contains all lines of another sets every bit the other run sets, except bits of an implied STEPDOWN feature that the added lines make no longer implied; without STEPDOWN requests every bit stays.", "quantifier": "every pair of FASM files one of which contains the lines of the other, every database, every iteration order", "why_tests_cant": "all designs", "anchors": ["fpga/assembler.cc:ProcessFasmFeatures"]}
{"id": "C43", "title": "Used buses are completely materialised", "statement": "For every tile bus touched by a feature bit, all of the bus's frames are present in the output (zero if untouched), and no frame outside touched buses is.", "quantifier": "every database and feature list", "why_tests_cant": "all designs", "anchors": ["fpga/assembler.cc:ProcessFasmFeatures"]}
{"id": "C44", "title": "Disabled and zero features do nothing", "statement": "A feature (a name with a dot) whose value is zero contributes nothing to the output and is not even looked up.", "quantifier": "every feature", "why_tests_cant": "all features", "anchors": ["fpga/assembler.cc:ProcessFasmFeatures"]}
{"id": "C45", "title": "Malformed feature names are rejected, unknown ones abort", "statement": "A feature name without a dot makes assembly fail with an error; a feature of an unknown tile or with no database entry terminates the program rather than being dropped.", "quantifier": "every feature list and database", "why_tests_cant": "all designs", "anchors": ["fpga/assembler.cc:ProcessFasmFeatures", "fpga/database.cc:ConfigBits"]}
{"id": "C46", "title": "Pseudo-pips contribute no bits", "statement": "Features listed as pseudo-pips of the tile type set no bit and need no segbits entry.", "quantifier": "every database and feature", "why_tests_cant": "all designs", "anchors": ["fpga/database.cc:ConfigBits"]}
{"id": "C47", "title": "Segbits to frame-bit arithmetic", "statement": "A segment bit (column c, bit b) of a bus with base address B and offset o lands at frame B+c, word o + b/32, bit b mod 32.", "quantifier": "every bus and segment bit in range", "why_tests_cant": "all tile grids", "anchors": ["fpga/database.cc:ConfigBits"]}
{"id": "C48", "title": "Database cache is transparent", "statement": "Looking up a feature gives the same answer whichever lookups were made before.", "quantifier": "every history of lookups", "why_tests_cant": "depends on history", "anchors": ["fpga/database.cc:AddSegbitsToCache", "fpga/database.cc:ConfigBits"]}
{"id": "C49", "title": "Bank registry is a consistent relation", "statement": "A tile is listed for a bank iff the bank is listed for the tile, iff the package tables put it there (an I/O bank location or a pin). The tile list of a bank is non-empty and duplicate-free; the bank list of a tile has one entry per table entry naming it (so a tile with two pins in a bank lists it twice); and neither depends, as a set, on map iteration order.", "quantifier": "all I/O bank tables, pin tables, banks, tiles and iteration orders", "why_tests_cant": "Ranges over every package description and every hash-iteration order.", "anchors": ["fpga/database.cc:BanksTilesRegistry::Create", "fpga/database.cc:BanksTilesRegistry::Tiles", "fpga/database.cc:BanksTilesRegistry::TileBanks"]}
{"id": "C50", "title": "STEPDOWN exactly where needed", "statement": "The bank of a tile is that of the first entry of the package about it (the clock tiles first, then the pins). If some feature asks for STEPDOWN in a tile of a bank, every unused IOB33 site of the tiles of that bank gets the same tag and the bank's HCLK_IOI3 tile gets STEPDOWN; no tile of any other bank does, and used sites are untouched. If a tile that asks has no bank, or an IOB33 tile of a bank concerned is not in the grid, the run aborts.", "quantifier": "every feature list, grid and package tables (a tile may be in several banks), and every order in which the hash tables list banks and tiles", "why_tests_cant": "all designs", "anchors": ["fpga/assembler.cc:AddStepDownFeatures", "fpga/database.h:BanksTilesRegistry"]}
{"id": "C51", "title": "PUDC_B defaults", "statement": "If some tile of the grid has a pin function containing PUDC_B, exactly three default features (IN_ONLY, IN, PULLTYPE.PULLUP) for the IOB site of that tile are implied, whatever the design; otherwise none is.", "quantifier": "every grid, pin list and feature list", "why_tests_cant": "all designs", "anchors": ["fpga/assembler.cc:AddPUDCBFeatures", "fpga/assembler.cc:FindPUDCBTileSite"]}
{"id": "C52", "title": "Parse problems stop assembly", "statement": "If a FASM line is rejected by the parser, assembly fails with an error whatever follows, and no bitstream is written. Success implies that the input is a sequence of complete lines each of which is in the FASM grammar or was skipped for an inverted range.", "quantifier": "every input text", "why_tests_cant": "all texts", "anchors": ["fpga/assembler.cc:AssembleFrames", "fpga/assembler.cc:main"]}
{"id": "C53", "title": "Segbits file parsing", "statement": "A segbits file whose every line is blank or 'FEATURE[addr] !?CC_BB ...' (the address in the last brackets, 0 when there is none) is read to exactly the map given by its lines, the first entry of a feature and address winning; a file with any other line is rejected as a whole.", "quantifier": "every byte string that can be split into lines", "why_tests_cant": "all files", "anchors": ["fpga/database-parsers.cc:ParseSegmentsBits"]}
{"id": "C54", "title": "Pseudo-pip file parsing", "statement": "A pseudo-pip file whose every line is empty or two words, the second being always, default or hint, is read to exactly the map given by its lines (first entry of a name wins); any other line makes the whole file rejected.", "quantifier": "every byte string that can be split into lines", "why_tests_cant": "all files", "anchors": ["fpga/database-parsers.cc:ParsePseudoPIPs"]}
{"id": "C55", "title": "Package pins parsing", "statement": "A package-pins file with the expected header and rows of five columns whose bank is a 32-bit number yields exactly one pin record per row, in order, with the written fields; any other header, column count or bank makes the whole file rejected.", "quantifier": "every byte string that can be split into lines", "why_tests_cant": "all files", "anchors": ["fpga/database-parsers.cc:ParsePackagePins"]}
{"id": "C56", "title": "Parts tables parsing", "statement": "For part and device tables in the key / property line format, every part is resolved to its device, package, speed grade and the fabric of its device; a part that lacks one of these or whose device cannot be found makes the whole table an error, and so does a line outside the format.", "quantifier": "every pair of byte strings", "why_tests_cant": "all files", "anchors": ["fpga/database-parsers.cc:ParsePartsInfos"]}
{"id": "C57", "title": "Line splitting", "statement": "Splitting a text into lines gives all its lines, in order: joined by newlines they are the text again. The byte after the text never influences the result; it is only read when the text does not end in a newline, which for a file that fills its last memory page exactly is an access outside the mapping.", "quantifier": "every text, every following byte", "why_tests_cant": "all texts", "anchors": ["fpga/database-parsers.cc:LinesGenerator", "fpga/memory-mapped-file.cc:MemoryMapFile"]}
{"id": "C58", "title": "Integer fields are range checked", "statement": "A numeric field is accepted exactly when, white space around it aside, it is a decimal number (optionally signed; an unsigned field takes only '+') that fits the destination type, and it yields that number; anything else is an error.", "quantifier": "every string", "why_tests_cant": "all strings", "anchors": ["fpga/database-parsers.cc:SimpleAtoi"]}
{"id": "C59", "title": "Part JSON gives exactly the described part", "statement": "A part description is accepted exactly when it has the described shape; then its rows and columns are numbered 0..n-1 without holes in document order, and the frames of the resulting part are exactly those the document lists (first entry of a repeated bus).", "quantifier": "every JSON document", "why_tests_cant": "all documents", "anchors": ["fpga/database-parsers.cc:ParsePartJSON", "fpga/database-parsers.cc:Unmarshal"]}
{"id": "C60", "title": "Tile grid base addresses", "statement": "A base address is read as a C integer literal: '0x' hexadecimal digits give exactly the number written when it is below 2^63, a number outside the signed 64-bit range is an error; whatever follows the number is ignored, a text without a number reads as 0 and a negative number wraps modulo 2^64.", "quantifier": "every string", "why_tests_cant": "all strings", "anchors": ["fpga/database-parsers.cc:ParseBaseAddress"]}
{"id": "C61", "title": "Which malformed database files are reported and which abort", "statement": "Parsing a malformed text file or JSON document returns an error status, with exactly these exceptions, which abort the process: a tile whose 'bits' is not an object, I/O banks that are not an object of strings, a numeric row or column key out of sequence (each when nothing earlier in the document is wrong); and text files that cannot be split into lines without over-reading.", "quantifier": "every byte string and every JSON document", "why_tests_cant": "adversarial input", "anchors": ["fpga/database-parsers.cc"]}
{"id": "C62", "title": "Whole program contract", "statement": "The program ends with status 0 or 1. Status 1 leaves stdout untouched and means one of the listed reasons (bad usage, no/bad database path, no part, database rejected, no input, design rejected); none of these reasons ever ends with status 0. Status 0 means, for a consistent database, that stdout holds a container whose decoding for the selected part is a configuration of all frames of the device whose set bits are exactly those requested by the input's features and the implied ones; and every design the assembler accepts is written. The database directory is the value of the flag where it is given, otherwise that of the environment variable; the input is the named file, or standard input if no file or \"-\" is named; a file that cannot be opened means status 1.", "quantifier": "all command lines, environments, database directories, FASM inputs, time stamps and hash-iteration orders", "why_tests_cant": "Ranges over every database and every FASM input.", "anchors": ["fpga/assembler.cc:main", "fpga/assembler.cc:AssembleFrames", "fpga/xilinx/bitstream.h:BitStream::Encode"]}
{"id": "C63", "title": "A line with an inverted range is dropped silently", "statement": "A FASM line whose bit range is inverted (low bound, read modulo 2^16, above the high one) contributes nothing and does not make assembly fail: the outcome is exactly that of the input without the line, whatever else is on the line.", "quantifier": "every input text", "why_tests_cant": "all texts", "anchors": ["fpga/assembler.cc:AssembleFrames", "fpga/fasm-parser.h:Parse"]}
{"id": "C64", "title": "Alias site maps rename only whole remainders", "statement": "The alias site map of a tile bus is applied to everything after the first dot of the tile-relative feature: a feature is looked up under another name only if that whole remainder is a key of the map, so for maps whose keys are dot-free a feature SITE.A.B is always looked up with SITE unchanged.", "quantifier": "all grids, aliases, tiles and feature names", "why_tests_cant": "Ranges over every alias table and every feature name.", "anchors": ["fpga/database.cc:PartDatabase::ConfigBits", "fpga/database-parsers.h:BitsBlockAlias"]}
{"id": "C65", "title": "Container header is constant", "statement": "A run that reports success sends a container whose header fields are the constants fpga-source / fpga-assembler / fasm together with the date and time, whatever the destination (file, pipe, file opened for appending); the part given on the command line does not appear in the header.", "quantifier": "all successful runs of the program: every database, part name, FASM input and time stamp", "why_tests_cant": "Ranges over every input and part name.", "anchors": ["fpga/assembler.cc:main", "fpga/xilinx/bitstream.h:BitStream::Encode", "fpga/xilinx/bitstream-writer.cc:BitstreamWriter::CreateBitstreamHeader"]}
{"id": "C66", "title": "STEPDOWN is recognised only in the third name component", "statement": "If no enabled feature has STEPDOWN in its third dotted component (tile.site.tag), no STEPDOWN is implied anywhere, even if the word occurs later in a feature name of a banked tile.", "quantifier": "all feature lists, grids, registries and iteration orders", "why_tests_cant": "Ranges over every design and every hash-iteration order.", "anchors": ["fpga/assembler.cc:AddStepdownFeatures", "fpga/assembler.cc:AssembleFrames"]}
{"id": "C67", "title": "A segment bit beyond the frame is written outside it", "statement": "If all features are known but one of them has a set segment bit at word 101 or later of its frame, processing writes outside the frame's array (undefined behaviour); the database gives no protection against such entries.", "quantifier": "every database, feature list, iteration order", "why_tests_cant": "Requires reasoning about every offset and bit number a database can contain; an out-of-bounds write need not be visible in a test.", "anchors": ["fpga/assembler.cc: ProcessFasmFeatures bit setter", "fpga/database.cc: PartDatabase::ConfigBits"]}
{"id": "C68", "title": "Tile grid parsing", "statement": "A tile grid document is accepted exactly when it is an object of well-formed tiles; then every tile has exactly the type, coordinates, bits blocks, aliases, pin functions and sites written in the first entry of its name, no tile is lost and none is invented.", "quantifier": "every JSON document", "why_tests_cant": "all documents", "anchors": ["fpga/database-parsers.cc:ParseTileGridJSON", "fpga/database-parsers.cc:Unmarshal"]}
{"id": "C69", "title": "A loaded database holds exactly what its files say", "statement": "Loading the database directory of a part succeeds iff mapping/parts.yaml and mapping/devices.yaml list and resolve the part, and FABRIC/tilegrid.json, PART/part.json and PART/package_pins.csv exist and are well formed; the loaded database then has exactly the tile grid, part description and banks these files describe, and for every tile type the segment bits and pseudo pips of segbits_TYPE.db, segbits_TYPE.block_ram.db and ppips_TYPE.db (type in lower case) beside the first tile_type_TYPE.json found below the root; a type without such a file has no data.", "quantifier": "every directory content, every part name, every tile type, every order in which the directory is walked", "why_tests_cant": "the file set, the walk order and the contents are unbounded; a test loads one database", "anchors": ["fpga/database.cc: PartDatabase::Parse, ParsePartInfo, IndexTileTypes, GetDatabasePaths, ParseTileTypeDatabase, CreateBanksRegistry", "fpga/memory-mapped-file.cc: MemoryMapFile"]}
{"id": "C70", "title": "A malformed tile-type file is silently treated as missing", "statement": "Asking a loaded database for a tile type never fails: if one of the files of the type is malformed or cannot be read, the type has no data, nothing is reported, and the program only aborts when a feature of a tile of that type is used.", "quantifier": "every database directory, every malformed content, every FASM text that enables a feature of a tile of that type", "why_tests_cant": "contents and texts are unbounded; the absence of a report is a statement about all of them", "anchors": ["fpga/database.cc: PartDatabase::Parse (tiles_database), ParseTileTypeDatabase, AddSegbitsToCache, ConfigBits"]}
{"id": "C71", "title": "From the database files and the FASM text to the bytes of the bitstream", "statement": "If the program ends with status 0, the file on standard output is a .bit container whose packets are the Series-7 configuration program for the IDCODE of the selected part, programming every frame of the device described by part.json, in which a bit is 1 iff the database files (tilegrid.json, segbits_*.db, ppips_*.db, package_pins.csv) list it for a feature of the FASM input, for a default PUDC_B feature, or for a STEPDOWN feature these imply. Conversely a design all of whose features (and implied ones) are listed in a consistent database is written with status 0.", "quantifier": "every database directory, part, FASM text (any text for the bits; any file of the grammar in terms of the bits it writes as 1), hash iteration order and directory walk order", "why_tests_cant": "it composes every stage of the program; tests run a few designs against one database", "anchors": ["fpga/assembler.cc: main, AssembleFrames", "fpga/database.cc: PartDatabase::Parse, ConfigBits", "fpga/xilinx/bitstream.h: BitStream::Encode"]}
{"id": "C72", "title": "A part built from a list of frame addresses has exactly the listed frames", "statement": "Constructing a part from an idcode and any collection of frame addresses (unsorted, with gaps and repetitions) never trips one of the constructors' assertions and never dereferences an empty range. The resulting part accepts an address exactly when some listed address has the same block type, half, row and column and a frame number at least as high; in particular every listed address is valid. The result depends only on the set of listed addresses, not on their order, on repetitions, or on how the sorting and partitioning algorithms order equal elements. The next frame of a valid or invalid address is always larger, fits in 26 bits and is valid; when the list has no holes in its rows and columns, walking from frame 0 meets every frame exactly once, in order. Listing all frames of a device description yields a part with the same valid frames as converting the description.", "quantifier": "all idcodes, all finite lists of 32-bit frame addresses, all sort and partition implementations permitted by the C++ standard", "why_tests_cant": "The constructors recursively sort and slice a caller-supplied range; a test exercises one list in one order with one standard library.", "anchors": ["fpga/xilinx/arch-xc7-part.h: Part::Part(uint32_t, T, T), GlobalClockRegion, Row, ConfigurationBus, ConfigurationColumn iterator constructors"]}
{"id": "C73", "title": "Big-endian spans read, write and iterate faithfully", "statement": "For words of any size k and any byte container: element pos of a big-endian span is the big-endian number of bytes k*pos .. k*pos+k-1, and asking for an element not wholly inside trips the assertion; assigning a word to an element stores exactly its k big-endian bytes, changes no other byte, and is read back (modulo the word size); size() is the number of whole words; iterating from begin() to end() yields all elements in order exactly when the container holds whole words, and otherwise reads past the end. Iterating over the bytes of any list of words gives the words back, and this is the conversion the bitstream reader applies after the sync word.", "quantifier": "all word sizes, all byte containers, all positions, all words", "why_tests_cant": "tests read and write a handful of 16/32-bit words; ragged containers and every position/width are not enumerable", "anchors": ["fpga/xilinx/big-endian-span.h: BigEndianSpan, value_type, iterator", "fpga/xilinx/bitstream-reader.h: InitWithBytes"]}
{"id": "C74", "title": "AUX data of a bitstream: header bytes and configuration logic words", "statement": "Printing the header of a byte sequence prints nothing when it holds no sync word, and otherwise exactly the bytes up to and including the first sync word, two upper-case hexadecimal digits each, so the header can be recovered from the text. Printing the configuration logic data of a word sequence prints, eight digits each, the words in front of the first WCFG command (all words if there is none) and the words from the last NULL command on (none if there is none). For every bitstream this program writes, the printed prefix is the fixed configuration prelude for the device's IDCODE, whatever the design; and unless a frame word happens to equal the CMD header 0x30008001 the printed suffix starts at the NULL command of that prelude, so it contains the complete frame data.", "quantifier": "all byte sequences, all word sequences, all devices and designs", "why_tests_cant": "there are no tests for the AUX output; it ranges over arbitrary bitstreams", "anchors": ["fpga/xilinx/bitstream-reader.h: PrintHeader, PrintFpgaConfigurationLogicData"]}
{"id": "C75", "title": "Printed frame addresses and registers are complete and unambiguous", "statement": "The frame listing of a configuration prints every frame address once, in increasing order, as eight hexadecimal digits separated by blanks, ended by a newline unless there are no frames; equal listings mean equal sets of addresses; for a decoded bitstream of this program it lists exactly the frames of the device. A frame address written to a stream shows its half, row, column, minor and block type as decoded from the address, and two different addresses never print alike. The twenty named configuration registers print different names, every other number prints Unknown.", "quantifier": "all frame maps, all 32-bit frame addresses, all register numbers, all devices and designs", "why_tests_cant": "distinctness over all addresses and listings over all frame sets cannot be enumerated", "anchors": ["fpga/xilinx/configuration.h: PrintFrameAddresses", "fpga/xilinx/arch-xc7-frame.cc: operator<<", "fpga/xilinx/arch-xc7-configuration-packet.cc: operator<<"]}
{"id": "C76", "title": "What the decoder makes of any packet sequence", "statement": "Decoding a packet sequence fails exactly when some IDCODE register write names another device. Otherwise the result holds, at each frame address, the last frame written there: a FDRI write starts at the value of FAR if since the previous FDRI write there was a WCFG command or a FAR write while CMD was WCFG and bit 21 of CTL1 (as enabled by MASK when CTL1 was written) was clear, and where the previous FDRI write stopped otherwise; its data is cut into frames of 101 words placed along the device's frame order, dropping two frames' worth of words at every row change and everything after the last frame of the device. Writes without data and non-write packets have no effect on registers.", "quantifier": "every part and every packet sequence", "why_tests_cant": "all histories of register writes of any length and interleaving", "anchors": ["fpga/xilinx/configuration.h:InitWithPackets", "fpga/xilinx/arch-xc7-part.cc:GetNextFrameAddress"]}
{"id": "C77", "title": "The behaviour does not depend on hash iteration order", "statement": "Two readings of the same database directory differ at most in the order of the entries of their containers. If the assembler exits with status 0 under one iteration order of its hash containers, it exits with status 0 and writes the same bytes under every other order, provided the description is consistent, at most one pin of the device names PUDC_B and no two I/O banks share their HCLK tile. If moreover no segment bit lies outside a frame, every other outcome (exit status 1, abort, undefined behaviour) is the same too. With two PUDC_B pins the output does depend on the order.", "quantifier": "all database directories, all FASM texts with lines under 2^24 characters, all pairs of iteration orders of every hash container", "why_tests_cant": "the iteration order of absl hash containers is randomised per process; a test sees a handful of the factorially many orders", "anchors": ["fpga/database-parsers.cc:ParseTileGridJSON", "fpga/database.h:PartDatabase", "fpga/assembler.cc:AssembleFrames", "fpga/assembler.cc:main"]}
{"id": "C78", "title": "How every run on a described database ends", "statement": "For a usable command line, a database directory that describes a part consistently and any FASM text, exactly one of four things happens, decided by the files and the text alone: (1) exit status 0 when every line is accepted, the package covers the STEPDOWN requests and every feature, including the default PUDC_B features and the implied STEPDOWN features, is covered by the database; (2) exit status 1 with nothing written when a line is rejected, or when the first uncovered feature has no dot in its name; (3) abort when a STEPDOWN request is outside the package, or the first uncovered feature has a dot, or an implied feature is not covered; (4) undefined behaviour only when the first line that is not accepted reads outside the buffer or shifts too far, which no line without a trailing tick and with values of sane width does. The run always ends.", "quantifier": "all consistent database directories whose segment bits lie inside frames, all FASM texts with lines under 2^24 characters, all iteration orders", "why_tests_cant": "a classification of all inputs into outcomes, including which of several defects in one input decides", "anchors": ["fpga/assembler.cc:main", "fpga/assembler.cc:AssembleFrames", "fpga/assembler.cc:ProcessFasmFeature", "fpga/fasm-parser.h:Parse"]}
{"id": "C79", "title": "Which command lines and databases are refused, and how", "statement": "Loading a database always ends. It succeeds exactly for the directories that describe one for the requested part, aborts exactly when the first defect met is a tile whose bits is not an object, I/O banks that are not an object of strings, or a row or column number out of sequence, in the tile grid of the part's fabric or in its part.json; otherwise it reports an error. The program exits with status 1 and an untouched output when the command line is unusable (more than one file, no database path, a path that does not exist, no part), whatever the database holds, and when the database is in error; it never exits with status 0 without a described database.", "quantifier": "all file systems with splittable files under 4 GiB, all JSON documents, all command lines, all iteration orders", "why_tests_cant": "ranges over all directory contents", "anchors": ["fpga/database.cc:PartDatabase::Parse", "fpga/database-parsers.cc", "fpga/assembler.cc:main"]}
{"id": "C80", "title": "Every FASM problem is printed with the number of its line", "statement": "With an error stream, the parser makes the same callbacks and returns the same result as without. Unless a callback refuses, the result is that of the worst message printed, so nothing is printed exactly when the result is success. The messages of a file are those of its lines parsed alone, with line i's messages carrying number i; a line is named in a message exactly when parsing that line alone is not a success, and every message about a line starts with that number in decimal, a colon and a space, and ends with a newline. fpga-as hands the parser one line at a time, so every message it prints about a line while reading its input says line 1. While it reads, fpga-as prints for each line what that line alone gives, stops after the first line with an error, and refuses the input exactly when an error was printed.", "quantifier": "all texts, callbacks, both shift semantics; line numbering for files under 2^32 lines", "why_tests_cant": "ranges over all input texts and all combinations of problems", "anchors": ["fpga/fasm-parser.h:Parse", "fpga/fasm-parser.h:internal", "fpga/assembler.cc:AssembleFrames"]}
{"id": "C81", "title": "Two designs give the same file exactly when they ask for the same bits", "statement": "For two successful runs of fpga-as on the same database directory and part, with any inputs, clocks and iteration orders, the two output files are byte for byte equal exactly when their date and time are equal and the two inputs (with the PUDC_B defaults and the STEPDOWNs they imply) ask for the same frame bits. So reordering, repeating, commenting or splitting lines never changes the file, and every difference in the requested configuration shows in it.", "quantifier": "all pairs of FASM texts, all consistent databases, all iteration orders", "why_tests_cant": "ranges over pairs of inputs and all databases", "anchors": ["fpga/assembler.cc:main", "fpga/assembler.cc:AssembleFrames", "fpga/xilinx/bitstream.h:Encode"]}
{"id": "C82", "title": "The configuration CRC is CRC-32C", "statement": "After any sequence of register writes, the configuration CRC is the remainder modulo the Castagnoli polynomial (0x11EDC6F41) of the bits sent: of each write the 32 data bits and then the 5 address bits, lowest first, with the previous register in front; no other register value satisfies that. So two write sequences give different CRCs whenever their bits differ only within 32 consecutive bits, in an odd number of places, or in up to three places of a stream of at most 2^31-1 bits.", "quantifier": "all sequences of register writes with 5-bit addresses and 32-bit data, all starting register values", "why_tests_cant": "ranges over write sequences of any length and all error patterns", "anchors": ["fpga/xilinx/arch-xc7-frame.h:ICAPCRC"]}
{"id": "C83", "title": "The frame check bits are an extended Hamming code", "statement": "Number the bits of a frame: the words take, in order, the blocks of 32 code positions from 0x320 to 0xFE0 except those at 0x400 and 0x800; check bit i (word 50, bits 0 to 11) has position 2^i; bit 12 of word 50 has none. Updating the check bits makes the exclusive or of the positions of all set bits zero and the number of set bits even, and gives the only frame with the same payload for which this holds. Computed and stored check bits agree exactly in the frames with that property. All positions are different, fit 12 bits, and no payload bit sits on a power of two.", "quantifier": "all frames of 101 32-bit words", "why_tests_cant": "ranges over 2^3232 frames", "anchors": ["fpga/xilinx/arch-xc7-frame.cc:ICAPECC", "fpga/xilinx/arch-xc7-frame.h:CalculateECC", "fpga/xilinx/arch-xc7-frame.h:UpdateECC"]}
{"id": "C84", "title": "The worker pool of the cached clang-tidy finishes its work under every schedule", "statement": "Whatever the number of threads, whatever other processes share the cache, and wherever processes are killed: if the items of a work list have different cache entries, no process is ended by an exception; a thread that has not ended can always take a step; without new processes every run is finite; and when a process has finished without an interrupted clang-tidy, every item of its work list has a cache entry, which, if the process was alone and the entries were new, is exactly the cleaned clang-tidy output for that item. Two items with one entry (equal headers of the same name in different directories) break this: the process can be ended by an exception.", "quantifier": "all work lists, numbers of processes and threads, interleavings, kill points, outputs of clang-tidy and earlier cache contents", "why_tests_cant": "A schedule-dependent claim: a test executes one interleaving.", "anchors": ["scripts/run-clang-tidy-cached.cc:ClangTidyRunner::RunClangTidyOn", "scripts/run-clang-tidy-cached.cc:ClangTidyRunner::RepairFilenameOccurences"]}
{"id": "C85", "title": "Cache entries are whole, at every moment", "statement": "At every moment of every run (several processes at once, killed at any step) the content of a cache entry is the one it had before or the whole cleaned result of a work item with that entry of one of the processes, never a part of one; an entry once there stays; and a reader that has opened an entry reads the same bytes however long it takes. This needs work lists without shared entries: with two equal headers of the same name an empty entry can be published although both items have complaints, and no later run looks at them again.", "quantifier": "all schedules, kill points, numbers of processes, work lists with distinct entries, earlier cache contents", "why_tests_cant": "Crash points and interleavings cannot be enumerated by running.", "anchors": ["scripts/run-clang-tidy-cached.cc:ClangTidyRunner::RunClangTidyOn", "scripts/run-clang-tidy-cached.cc:ContentAddressedStore::PathFor"]}
{"id": "C86", "title": "A finished run leaves nothing to do and its verdict is about the sources", "statement": "After a run that finished without interrupted clang-tidy calls, the work list for the same sources is empty, whatever other processes did before, meanwhile and after. Its exit status is 0 exactly if the cached result of every file of interest contains no complaint, and if the cache was empty and no other process was at work these results are the cleaned outputs of this run. An interrupted run is different: it exits with status 0 although nothing was checked.", "quantifier": "all source trees, cache histories, schedules, kills of other processes, outputs of clang-tidy", "why_tests_cant": "Depends on the whole history of the cache and on the schedule.", "anchors": ["scripts/run-clang-tidy-cached.cc:main", "scripts/run-clang-tidy-cached.cc:ClangTidyRunner::RunClangTidyOn", "scripts/run-clang-tidy-cached.cc:FileGatherer::BuildWorkList", "scripts/run-clang-tidy-cached.cc:FileGatherer::CreateReport"]}
{"id": "C87", "title": "Cache keys and the work list", "statement": "The files looked at are exactly the source and header files not below .git, .github or build, each once, each with the key: the hash of its content combined by exclusive or with the hashes of all project headers that have the base name of a file it includes with a quoted include directive. The key does not depend on the order of directory listings. Two files share a cache entry exactly if base name and key (mod 2^64) agree. A changed header is noticed by a file exactly if the file includes it an odd number of times (up to hash collisions): a header included twice, or two equal headers with one base name changed alike, go unnoticed. The work list is the files looked at whose entry does not exist.", "quantifier": "all source trees, file contents and hash functions", "why_tests_cant": "Ranges over all source trees and contents.", "anchors": ["scripts/run-clang-tidy-cached.cc:FileGatherer::BuildWorkList", "scripts/run-clang-tidy-cached.cc:ContentAddressedStore::PathFor", "scripts/run-clang-tidy-cached.cc:ContentAddressedStore::NeedsRefresh", "scripts/run-clang-tidy-cached.cc:ToHex"]}
{"id": "C88", "title": "Which lines of clang-tidy's output are kept", "statement": "A line names a file exactly if it has the form of a complaint about a place in some file (path:line:column: ... [check-name]), and the file named is one it is about. Of an output exactly the lines belonging to a complaint about the file checked, and those before the first complaint, are kept, in order and newline terminated; filtering twice is filtering once. A complaint that mentions another location in its message is attributed to that file and lost.", "quantifier": "all outputs and file names", "why_tests_cant": "Ranges over all texts.", "anchors": ["scripts/run-clang-tidy-cached.cc:ClangTidyRunner::FilterCheckLines", "scripts/run-clang-tidy-cached.cc:ClangTidyRunner::RepairFilenameOccurences"]}
{"id": "C89", "title": "The report: what is counted, the summary and the exit status", "statement": "The complaints found in a cached output are its newline-terminated lines that end with a check name, except one directly after a counted one; if no two complaints are adjacent all are counted. The summary lists every check once, with the number of different complaint lines found, the more frequent first and otherwise by name. The exit status is 1 if some file has a counted complaint and 0 otherwise. Adjacent complaints are undercounted.", "quantifier": "all cached outputs and work lists", "why_tests_cant": "Ranges over all texts.", "anchors": ["scripts/run-clang-tidy-cached.cc:FileGatherer::CreateReport", "scripts/run-clang-tidy-cached.cc:main"]}
{"id": "C90", "title": "Every configuration bit has a fixed place in the file, and nothing else in the file depends on the design", "statement": "When a run of fpga-as succeeds (no oversized shift in the text, a sound database, a ten character date and an eight character time), bit i of word w of frame a of the device is bit i mod 8 of byte 328 + 4*(k + w) + 3 - i/8 of the output, where k is 101 words for each frame of the device with a smaller address plus 202 words for each device row (block type, half, row) with frames before the row of a; that bit is set exactly when the design (the features of the text, the defaults and what they imply) asks for it. Every frame has exactly one such place, different bits have different places, and the size of the file is 328 + 4*(101*frames + 202*rows + 524) bytes. Two successful runs on the same database and part give files of the same size, and a byte in which they differ lies in the date (64..73), in the time (78..85), or is the place of a bit on which the two designs disagree.", "quantifier": "all commands, databases, devices, inputs, iteration orders; all frames, words and bits; all pairs of inputs", "why_tests_cant": "The claim ranges over all devices and designs and over every byte of the file; a test compares a few files against golden bytes of one device and cannot show that no byte outside the frames ever depends on the design, or that no two bits share a place.", "anchors": ["fpga/assembler.cc:main", "fpga/assembler.cc:AssembleFrames", "fpga/xilinx/configuration.h:CreateType2ConfigurationPacketData", "fpga/xilinx/bitstream-writer.h:BitstreamWriter", "fpga/xilinx/bitstream.h:Encode"]}
{"id": "C91", "title": "A refusal is explained on stderr; a success prints nothing but the messages for its lines", "statement": "When a run of fpga-as ends with status 1 it has written nothing to stdout and its stderr holds the messages of the first reason to refuse there is, in this order: too many arguments, no database path, a path that is empty or does not exist, no part, a database that cannot be loaded, an input file that cannot be opened, the first line that is not FASM (after the messages of all lines up to it), a feature without a dot (named, the first one; after the messages of all lines). When it ends with status 0 there was no such reason, and stderr holds the messages of the lines in order, none of them an error. stderr is empty exactly when the run succeeded and no line gave a message; after a refusal its last message begins with the text naming the step that failed.", "quantifier": "all commands, environments, databases (loadable or not), inputs and iteration orders", "why_tests_cant": "That no refusal is silent, that the message is that of the first reason, and that a success never prints an error are statements over every combination of arguments, file contents and lines; a test provokes one reason at a time.", "anchors": ["fpga/assembler.cc:main", "fpga/assembler.cc:AssembleFrames", "fpga/fasm-parser.h:Parse", "fpga/assembler.cc:GetOptFlagOrFromEnv"]}
{"id": "C92", "title": "A file cut off at any byte is read back as all frames, as none, or not at all", "statement": "Take the file of a successful run (device with f frames in r rows) and cut it to its first n bytes. Reading it with the library gives: no bitstream when n < 144 (the sync word is missing); undefined behaviour when n is larger and not a multiple of 4; a bitstream without frames when n is a multiple of 4 below 328 + 4*(101 f + 202 r); the complete set of frames, with the contents of the complete file, from there on. So a partial set of frames is never returned, but an absent one is not reported as an error either.", "quantifier": "all successful runs (databases, inputs, iteration orders) and all cut positions", "why_tests_cant": "There are as many cut positions as bytes in a file, for every device and design; the claim is about each of them.", "anchors": ["fpga/xilinx/bitstream-reader.h:InitWithBytes", "fpga/xilinx/configuration.h:InitWithPackets", "fpga/xilinx/bitstream-reader.h"]}
{"id": "C93", "title": "A run stopped at any point leaves a prefix with length 0, or a file that differs from the complete one in the length only", "statement": "fpga-as writes to a new file through stdout and is stopped after any number of the single-byte writes and seeks it makes. What is in the file then agrees with the complete file at every byte outside the four bytes of the length field; the length field is 0 unless all other bytes are already there; a file whose length field is not 0 and equals the number of bytes after it is the complete file. Read back with the library it gives the same as the complete file cut to that size.", "quantifier": "all successful runs, all points between two bytes at which the process may stop", "why_tests_cant": "A crash can happen between any two bytes; tests would have to kill the process at each of them for every design.", "anchors": ["fpga/xilinx/bitstream-writer.h:writeBitstream", "fpga/xilinx/bitstream.h:Encode", "fpga/assembler.cc:main"]}
{"id": "C94", "title": "A device that runs full does not change the status, only the file: a prefix with length 0", "statement": "When the device behind stdout has room for only r bytes, a run that would succeed still ends with status 0. The file is complete when it fits; otherwise it has r bytes, agrees with the complete file outside the length field, and its length field is 0. An output that cannot be repositioned (a pipe, a file opened for appending) gets exactly the first r of its bytes, also with status 0. A run that ends with status 1 has written nothing, whatever the room. Hence status 0 does not imply that the bitstream is complete.", "quantifier": "all commands, environments, inputs and all sizes of the device", "why_tests_cant": "The size at which the device is full is arbitrary; a test tries a few sizes of one design.", "anchors": ["fpga/xilinx/bitstream-writer.h:writeBitstream", "fpga/assembler.cc:main"]}
{"id": "C95", "title": "The header carries the UTC date and time of the run, and nothing else depends on the clock", "statement": "When a run of fpga-as succeeds in the second t after 1970/01/01 00:00:00 UTC (before the year 10000), bytes 64-73 of the file are the Gregorian date of that second as YYYY/MM/DD and bytes 78-85 its time of day as HH:MM:SS, where the date and time of t are those reached by t ticks of one second from the epoch (months of 28-31 days, leap years by the 4/100/400 rule). The same command at any other second also succeeds, with a file of the same length that agrees in every byte outside these two ranges; files written in different seconds differ.", "quantifier": "all seconds from 1970 to 9999, all commands, databases and inputs", "why_tests_cant": "There are 253 billion seconds, and calendar mistakes show on few of them (leap days, centuries, month ends); a test sees the moment it runs in.", "anchors": ["fpga/xilinx/bitstream-writer.h:writeBitstream", "fpga/assembler.cc:main"]}
{"id": "C96", "title": "A run reads only the database files its part and its design need, each once", "statement": "The files of the database directory that a run of fpga-as opens are: mapping/parts.yaml, mapping/devices.yaml, the tilegrid.json of the part's fabric, the part's part.json and package_pins.csv, and, for each tile type under which a feature with a set bit in the design (text, PUDC_B default, step-down) is looked up, the existing ones of its ppips, segbits and block_ram segbits files; a run with status 0 opens exactly these. Whatever the run comes to, changing the contents of any file that is not opened changes neither status nor output nor the list of files opened. If tile type names have no dots and differ in lower case, no file is opened twice, however many features use the type.", "quantifier": "all commands, database directories, inputs and hash orders; all changes of the files not opened", "why_tests_cant": "A test would have to corrupt every other file of a database for every design; that nothing unopened matters is a statement about all contents.", "anchors": ["fpga/database.cc:PartDatabase::Parse", "fpga/database.cc:AddSegbitsToCache", "fpga/database.cc:ParseTileTypeDatabase", "fpga/memory-mapped-file.cc:MemoryMapFile"]}
{"id": "C97", "title": "A change of the design changes the file only where the changed tiles are", "statement": "Take two successful runs of fpga-as on the same database and part. A byte in which the files differ lies in the date or in the time, if those differ, or in a frame of a tile that the change reaches: a tile named in a feature that only one of the designs has, or, if that feature is a STEPDOWN, an IOB33 or HCLK_IOI3 tile in the I/O bank of its tile. If the segment bits of the tile types lie in the words of their blocks, the byte lies in the words that the tile grid gives to such a tile, so that other tiles sharing the frame are not disturbed. (Tile names of the package contain no dots.)", "quantifier": "all databases, devices and pairs of inputs, all iteration orders, all bytes", "why_tests_cant": "Non-interference: the claim compares every pair of designs, byte by byte; tests compare a few.", "anchors": ["fpga/assembler.cc:AssembleFrames", "fpga/assembler.cc:AddStepDownFeatures", "fpga/database.cc:PartDatabase::ConfigBits", "fpga/xilinx/configuration.h:CreateType2ConfigurationPacketData"]}
{"id": "C98", "title": "A run holds at most one descriptor and two mapped files, and gives everything back", "statement": "While fpga-as runs it never has more than one database file open and never more than two mapped, however many tile types the design uses; a file that was opened is mapped as a whole and its descriptor closed before anything else is done; only what is held is given back. When the run ends with an exit status (0 or not) nothing is left open or mapped. (A run that aborts leaves that to the kernel.)", "quantifier": "all databases, parts, inputs, environments, iteration orders; every point of the run", "why_tests_cant": "A leak is invisible in the output: it would need a test per path through every loader, and a bound that holds at every moment of every run.", "anchors": ["fpga/memory-mapped-file.cc:MemoryMapFile", "fpga/memory-mapped-file.cc:MemoryMappedFile", "fpga/database.cc:PartDatabase::Parse", "fpga/database.cc:ParseTileTypeDatabase"]}
{"id": "C99", "title": "Frames survive encode and decode for each of the three architectures", "statement": "For 7-series, UltraScale and UltraScale+ alike: complete a design with the missing frames of the device, build the frame payload, put it into any sequence of type-1 packets that loads it (FAR 0, WCFG, FDRI), write the file and read it back: the reader delivers the same packets, and the decoder every frame at its address with the 101, 123 or 93 words of the architecture, zero frames elsewhere on the device and nothing else. The file starts with the preamble of the architecture. The 7-series instance of these templates is the one the tool uses.", "quantifier": "all three architectures, all devices (up to 360000 frames), designs, surrounding packets and header texts", "why_tests_cant": "The repository instantiates and tests only one of the three; the claim is for all designs of all devices.", "anchors": ["fpga/xilinx/arch-types.h:ArchitectureTraits", "fpga/xilinx/arch-xc7-frame.h:frame_words_count", "fpga/xilinx/frames.h:Frames::AddMissingFrames", "fpga/xilinx/configuration.h:Configuration", "fpga/xilinx/bitstream-writer.cc:header_", "fpga/xilinx/bitstream-writer.h:BitstreamWriter"]}
{"id": "C100", "title": "Each file is handed to clang-tidy as one argument, its results to one file", "statement": "The cached clang-tidy builds one shell command per source file. As long as no apostrophe occurs in the file name, the directories, the configuration name and the arguments, a POSIX shell reads it as: the program (and words) of CLANG_TIDY (clang-tidy if unset), then the file as a single argument, --quiet, the configuration (CLANG_TIDY_CONFIG or .clang-tidy), the two fixed extra arguments and the arguments of the call unchanged, with standard output to the temporary file of this item and standard error discarded. Blanks, dollar signs, semicolons and newlines are harmless. Two items' outputs go to the same file only if they share their cache entry. With an apostrophe in a file name the file is silently not looked at.", "quantifier": "all environments, arguments, file names, directories and process ids", "why_tests_cant": "Quoting must be right for every name and argument a project can have.", "anchors": ["scripts/run-clang-tidy-cached.cc:AssembleArgs", "scripts/run-clang-tidy-cached.cc:RunClangTidyOn"]}
{"id": "C101", "title": "Which runs of the cached clang-tidy share a cache", "statement": "The cache lives in CACHE_DIR, else in ~/.cache if that exists, else in TMPDIR or /tmp. The directory is named by the project's directory, the version number clang-tidy prints (UNKNOWN if it prints none) and eight hexadecimal digits of the fingerprint. Two runs with the same base share their results exactly if the last components of their working directories, the major versions of their clang-tidy and the low 32 bits of their fingerprints (the hash of version and arguments, combined by exclusive or with that of the configuration) agree; when only the content of the configuration file differs they share them exactly if the hashes of the two contents agree in the low 32 bits. Different configuration names or arguments (without apostrophes) make different texts to hash.", "quantifier": "all environments, version texts, arguments, configuration contents and hash functions", "why_tests_cant": "Sharing a cache between different configurations yields wrong verdicts; it must be excluded for all of them.", "anchors": ["scripts/run-clang-tidy-cached.cc:GetCacheBaseDir", "scripts/run-clang-tidy-cached.cc:AssembleProjectCacheDir", "scripts/run-clang-tidy-cached.cc:ToHex"]}
{"id": "C102", "title": "Paths in clang-tidy's output are made relative line by line", "statement": "In the output of clang-tidy every line loses, at its start only, the first of the project roots (execution root of bazel, working directory) it is below of, then one './', and nothing else changes; a message about a file below the working directory names it relative to that. A dot in the name of a root stands for any character, so files of a directory with a similar name are taken for the project's.", "quantifier": "all output texts and all roots without characters special in regular expressions other than dots", "why_tests_cant": "Later steps attribute complaints to files by these paths; it must hold for every output.", "anchors": ["scripts/run-clang-tidy-cached.cc:RepairFilenameOccurences"]}
{"id": "C103", "title": "When the cached clang-tidy starts, and with how many workers", "statement": "A run begins exactly if the configuration file exists, the working directory has a .clang-tidy and one of the two compilation databases, and clang-tidy prints a version; otherwise the message names what is missing. A positive number at the start of CLANG_TIDY_JOBS is the number of workers (a plus sign does not matter), otherwise - also for a negative number - there is one worker for each processor. With at least one worker, once the workers have ended without interruption nothing is left to do. If the number of processors is unknown (0) there is no worker and nothing is done.", "quantifier": "all environments, file systems, work lists and schedules", "why_tests_cant": "The combinations of environment and schedule cannot be enumerated.", "anchors": ["scripts/run-clang-tidy-cached.cc:main", "scripts/run-clang-tidy-cached.cc:RunClangTidyOn"]}
{"id": "C104", "title": "What is said about a database that cannot be loaded is true of it", "statement": "When fpga-as reports that the database cannot be loaded (\"part mapping parsing: ...\"), the message states a fault that a file the run reads really has: a file of the part, of its fabric or of the mapping directory that cannot be opened (named by its path), a line of a part table without its colon, a device without a fabric, a part entry without device, package or speedgrade or with a device that is not listed, a part that is not listed, a text that is not JSON, a missing or ill-typed member of the tile grid (with the tile) or of the part, an unknown bus, a key that is no number, a base address that cannot be read, a directory that cannot be walked, a line of the package pins (with its number) that has no header, the wrong number of columns or an unreadable bank. A directory with such a fault describes no database; and every directory that describes none gets such a message, unless the loader aborts. The message need not say which file is meant.", "quantifier": "all directories and file contents (shorter than 2^32-1 bytes and not ending at a page boundary without a newline), all parts and orders of iteration", "why_tests_cant": "The faults a database can have are unbounded in number, place and combination; tests show the message for a few broken files and cannot show that no message ever accuses a file that is in order.", "anchors": ["fpga/database-parsers.cc:Unmarshal", "fpga/database-parsers.cc:ParseMappingYAML", "fpga/database-parsers.cc:ParsePartsInfos", "fpga/database-parsers.cc:ParsePackagePinCSVLine", "fpga/database.cc:PartDatabase::Parse", "fpga/memory-mapped-file.cc:MemoryMapFile", "fpga/assembler.cc:main"]}
{"id": "C105", "title": "A device that receives the output file runs exactly the design", "statement": "Sending the .bit file that a successful run of fpga-as wrote to a Series-7 device of the named part (the IDCODE agrees but for the revision field, the frames are those of part.json), whatever its configuration memory and registers hold before, leaves the device out of configuration mode, started, without a failure; a bit of a frame is set if and only if some FASM feature of the input, or the I/O rules, ask for it; memory outside the part's frames is untouched; the control registers get the fixed values of the sequence. A device with another IDCODE never starts and its memory stays as it was, also when only a part of the file is sent. What the device holds is what the project's own bitstream reader reads from the file.", "quantifier": "all databases, parts, FASM inputs, iteration orders and clock texts of successful runs; all devices of the kind, all previous memory contents and registers, all checksum functions, all prefixes of the file for the wrong device", "why_tests_cant": "A test needs hardware or a simulator and sees a few designs on one device state; the claim ranges over all designs, all parts and all previous contents of the device.", "anchors": ["fpga/assembler.cc:main", "fpga/xilinx/arch-xc7-configuration-packet.cc", "fpga/xilinx/bitstream.h:BitStream::Encode", "fpga/xilinx/bitstream-writer.h", "fpga/xilinx/frames.h:Frames"]}
{"id": "C106", "title": "A transfer that stops leaves old and new frames, never a half frame, and a device that does not run", "statement": "If the transfer of the output file to the right device stops after n bytes, every frame of the part is either exactly as it would be after the whole file or exactly as it was before, and it is the former if and only if the last byte of the frame's own place in the file was sent; no other memory changes; and the design is in operation if and only if all but the last 1600 bytes (the 400 trailing no-operations) were sent. So a device that runs holds the complete design.", "quantifier": "all successful runs, all right devices and previous contents, all n", "why_tests_cant": "The crash point can be any byte of any file.", "anchors": ["fpga/xilinx/arch-xc7-configuration-packet.cc", "fpga/xilinx/bitstream-writer.h", "fpga/xilinx/bitstream.h:BitStream::Encode"]}
{"id": "C107", "title": "No change of the frame data is noticed by the device", "statement": "The output file carries no checksum, so a file whose bytes between the fixed header and the fixed tail are replaced by any others of the same number is accepted: the device starts without a failure and holds the changed data, bit by bit. In particular one flipped bit gives a running device in which exactly that one configuration bit is wrong. The expectation that a running device holds the design even if the file was damaged is false.", "quantifier": "all successful runs, all right devices and previous contents, all replacement bytes, all frames, words and bits, all checksum functions of the device", "why_tests_cant": "The absence of a check shows only in the damage it lets pass; the claim ranges over all damages.", "anchors": ["fpga/xilinx/arch-xc7-configuration-packet.cc", "fpga/xilinx/bitstream-writer.h", "fpga/xilinx/bitstream.h:BitStream::Encode"]}
{"id": "C108", "title": "The report files of the cached clang-tidy", "statement": "When run-clang-tidy-cached ends, the link <project>_clang-tidy.out in the working directory points to a detail file in the cache directory that lists, for each source file with non-empty cached output and in order, its path, a colon and that output; the link <project>_clang-tidy.summary points to a summary file whose text is what was printed: one row per check, the count right-aligned in five columns, a space, the name. The text determines the rows. No cache entry and no other file is changed. Two checkouts that share a cache keep separate reports unless the 64-bit hashes of their directories agree. The exit status is 0 exactly if nothing was printed and \"No clang-tidy complaints\" was said. A name at which a link cannot be made, or a detail file that cannot be written, is passed over silently; a summary file that cannot be opened makes the behaviour undefined, even without complaints.", "quantifier": "all cache contents, lists of source files, working directories, environments, hash functions and states of the four names", "why_tests_cant": "Whether a report overwrites a cache entry or another checkout's report depends on all paths and hashes; tests try a few names.", "anchors": ["scripts/run-clang-tidy-cached.cc:CreateReport", "scripts/run-clang-tidy-cached.cc:main", "scripts/run-clang-tidy-cached.cc:GetContent"]}
{"id": "C109", "title": "A run during an update of the database behaves as a run on one fixed directory, though not always on the old or the new one", "statement": "Let database files be replaced (each by a whole other file, between two opens) while fpga-as runs. Whatever is seen at each open, there is a fixed directory with the same entries on which the program opens the same files in the same order, finds in each of them exactly what is seen at that moment, and so comes to the same status and output; and what is seen determines files opened, status and output uniquely. If one database replaces another at some moment, the run has its files opened before from the old and the others from the new one; a replacement after the last open, or before the first, is no different from the old or the new database alone. (Refuted: the output is always that of the old or that of the new database; a run can exit 0 with a mixture of both.)", "quantifier": "all sequences of contents at the moments of the opens, all commands, directories, inputs and hash orders", "why_tests_cant": "A test fixes one schedule of updates; that the next file opened depends only on the contents of the files already opened, and no file is opened twice, is about all of them.", "anchors": ["fpga/memory-mapped-file.cc:MemoryMapFile", "fpga/database.cc:PartDatabase::Parse", "fpga/database.cc:AddSegbitsToCache", "fpga/assembler.cc:AssembleFrames"]}
{"id": "C110", "title": "A FASM input that ends early", "statement": "Suppose the program, given all of a FASM text, ends with exit status 0, and is run again with only the beginning of that text (the tool writing into the pipe was killed, the disk filled up, reading failed: to the program all of these look like the end of the input). If the beginning stops inside a line - even if only the final newline is missing - the run ends with exit status 1 and writes nothing, for every database and design. If it stops between two lines (or the input is empty), the run does not notice: on a database in the documented form it ends with exit status 0 and a complete, valid bitstream that programs every frame of the device with exactly the bits of the lines that arrived and of the features these imply, or it aborts because a STEPDOWN that the arrived lines imply, for a site which only the missing lines use, is not in the database; it never ends with status 1. When nothing asks for STEPDOWN it always ends with 0, with a file whose bits are among those of the whole design. (\"A run whose input was cut short does not end with status 0\" is refuted.)", "quantifier": "every command, database, input text and every point at which the text is cut; every fuel bound and iteration order", "why_tests_cant": "A test cuts one input at one place; whether an incomplete design can pass for a complete one is a statement about every cut of every input.", "anchors": ["fpga/assembler.cc: AssembleFrames, main", "fpga/fasm-parser.h: Parse"]}
{"id": "C111", "title": "What the FASM parser reports stands in the text", "statement": "Every feature and annotation handed to a callback is a literal piece of the text parsed (the documented guarantee that these strings are backed by the content): the feature name is the first thing on a line, after blanks, and is not followed by a further name character; an annotation stands further on, opened by a brace or comma, as name = \"value\" with exactly that value. The callbacks are called at most once per character of the text. Line numbers start at 1 and never go back, and all reports with one line number name one feature; when no line ends in a single quote, the reports of each line carry the number of exactly that line and come in the order of the lines.", "quantifier": "every text, accepted or rejected, every callback, with or without annotations, both readings of an oversized shift", "why_tests_cant": "all texts, also malformed ones on which parsing goes on", "anchors": ["fpga/fasm-parser.h:Parse", "fpga/fasm-parser.h:ParseCallback", "fpga/fasm-parser.h:AnnotationCallback"]}
{"id": "C112", "title": "A newer edition of the database gives the same file", "statement": "Let a run of fpga-as end with exit status 0, and run it again after the database was extended: every tile type described before is still described, what had segment bits keeps exactly these, what was a pseudo pip still is one, and no feature name that has segment bits became a pseudo pip; new tile types, new names, new bits of known names may have been added, files may have been re-ordered or re-formatted. Then the second run also ends with exit status 0, with byte for byte the same bitstream, in whatever order the file system lists the directory and the hash tables are walked. In particular this is so when lines are appended to one segbits file for (name, bit)s that had no segment bits in it or elsewhere in the tile type, or to one ppips file for names without segment bits. (That any added line is harmless is refuted: a pseudo pip line for a name that has segment bits makes the program silently write a bitstream without these bits.)", "quantifier": "all commands, designs, databases in the documented form, editions of them, iteration orders", "why_tests_cant": "A test compares two databases; that no addition of this kind can change any accepted design is a statement about all databases, additions and designs.", "anchors": ["fpga/database.cc:AddSegbitsToCache", "fpga/database.cc:PartDatabase::ConfigBits", "fpga/database-parsers.cc:ParsePseudoPIPsDatabase", "fpga/database-parsers.cc:ParseSegmentsBitsDatabase", "fpga/assembler.cc:AssembleFrames"]}
{"id": "C113", "title": "Features are read back from the file; contradictions pass unnoticed", "statement": "After a run that ends with exit status 0, reading the written bitstream back as the device does gives, for every feature of the design (a line of the input or implied by it): every configuration bit the database lists for it as set is 1, and every bit it lists as cleared (the lines with '!') is 0 unless some feature of the design sets that bit. So every feature of the design reads back as the database describes it exactly when the design contains no contradiction (one feature setting the bit another one clears). (That the program notices contradictions is refuted: it exits 0 with a bitstream in which the clearing feature is not satisfied.)", "quantifier": "all commands, databases in the documented form, accepted designs, features, bits, iteration orders", "why_tests_cant": "Tests look at single features; that two features never disturb each other unless they contradict each other concerns all pairs in all designs and databases.", "anchors": ["fpga/assembler.cc:AssembleFrames", "fpga/database.cc:PartDatabase::ConfigBits", "fpga/xilinx/bitstream.h:BitStream", "fpga/xilinx/arch-xc7-frame.cc"]}
{"id": "C114", "title": "Only the bits of the features matter, not how the text spells them", "statement": "Let a run of fpga-as end with exit status 0. Any other FASM text that is accepted line by line, whose features all have names with a tile (something before a dot), and that switches on the same bits of the same features gives, with the same command and database, exit status 0 and byte for byte the same bitstream, whatever the iteration orders: lines reordered or repeated, values in another base or with leading zeros, vectors split into parts or into single bits or the reverse, features with value 0 added or left out, comments and annotations changed. In particular, a text with the same set of lines does, and so does the plainest text: one line name[k] for each bit switched on, in any order, and nothing else.", "quantifier": "all commands, databases in the documented form, accepted texts, iteration orders", "why_tests_cant": "A test compares a few spellings; that nothing but the bits enters the result - the implied STEPDOWNs, the package lookups and failures included - is about all pairs of texts.", "anchors": ["fpga/assembler.cc:AssembleFrames", "fpga/fasm-parser.h:Parse", "fpga/database.cc:PartDatabase::ConfigBits"]}
{"id": "C115", "title": "A disassembly of the bitstream assembles to the same bitstream", "statement": "Let a run of fpga-as end with exit status 0, for a design in which no feature needs a configuration bit cleared that another one sets. A reading of the frames in the written bitstream is a list of features of the database of which each has all its listed bits in the frames as the database asks, and which includes every bit of a feature that fits so and has a bit set. Any FASM text whose features are such a reading, that asks for STEPDOWN only in banks and under tags for which the design does, and that uses the IO sites the design uses in the tiles of those banks, gives with the same command and database exit status 0 and byte for byte the same bitstream, whatever the iteration orders. The implied STEPDOWNs and the pull-up of the PUDC_B pin, which a disassembler prints too, change nothing. Without the last condition this fails: a site used only through features all of whose bits are cleared leaves no trace in the frames, and the reassembled bitstream has STEPDOWN set there.", "quantifier": "all successful runs without contradictions, all readings of their frames, iteration orders, databases in the documented form", "why_tests_cant": "A round trip test shows one design; that nothing is lost or added holds for all designs and all readings a disassembler may choose.", "anchors": ["fpga/assembler.cc:AssembleFrames", "fpga/assembler.cc:FindPUDCBTileSite", "fpga/database.cc:PartDatabase::ConfigBits", "fpga/xilinx/bitstream-writer.h:BitstreamWriter"]}
{"id": "C116", "title": "Only what the database says matters, not where, in which order or under which part name it is written", "statement": "Let a run of fpga-as end with exit status 0, and let a second database directory say the same: the same tiles, blocks, pins and sites in the grid, the same banks and rows in the part description, the same tiles in the same banks of the package, and for every tile type the same pseudo pips and the same segment bits per (name, bit). Then a run on the second directory, for the part name under which it lists this part, with the same design, date, time and output, ends with exit status 0 too and writes byte for byte the same bitstream, in whatever order the file system lists the directory and the hash tables are walked. The second directory may lie elsewhere, be named by flag or by environment variable, and use another part name. In particular it says the same when the members of the objects of tilegrid.json are written in another order, at any depth, no name being given twice in an object; when the members of the objects of part.json are, the rows and columns staying in the order of their numbers that the program requires, and no bank being given under two spellings of its number; when the lines of the segbits and ppips files are in another order, no (name, bit) being given twice in a file; and when the rows of the package file are in another order, no tile being in two banks. (That the order of lines never matters is refuted: if a (name, bit) is given twice with different segment bits only the first counts, so exchanging the two lines silently changes the bitstream.)", "quantifier": "all commands, designs, pairs of databases in the documented form that say the same, iteration orders", "why_tests_cant": "A test compares two spellings of one database; that no position, order or name in the files enters the bitstream is a statement about all databases and designs.", "anchors": ["fpga/database.cc:PartDatabase::Parse", "fpga/database.cc:PartDatabase::ConfigBits", "fpga/database-parsers.cc:ParseSegmentsBitsDatabase", "fpga/database-parsers.cc:ParsePseudoPIPsDatabase", "fpga/database-parsers.cc:ParseTileGridJSON", "fpga/database-parsers.cc:ParsePackagePins", "fpga/assembler.cc:AssembleFrames"]}
{"id": "C117", "title": "Designs that are accepted separately are accepted together, and their bits add up but for the implied STEPDOWN of IO sites that one of them uses", "statement": "Let fpga-as, with the same database, part, date, time and output, end with exit status 0 on each of two FASM texts. Then it ends with exit status 0 on the first text followed by the second one (the last line of an accepted text always ends with a newline, so no line is glued), whatever the sizes of the two, the order in which the hash tables are walked, and whatever the designs have in common: no conflict between two designs is ever reported. The two texts in the other order give byte for byte the same file, and if the second design switches on only bits that the first one switches on, the result is byte for byte the file of the first. Each bit that is set in the frames of the result is set in the frames of one of the two separate results. Each bit set in one of the separate results is set in the common one, but for one kind: a bit of the STEPDOWN that one design implies for an IO site it does not use, in a bank in which it steps down, when the other design uses that IO site. If no design uses, in a bank in which the other one steps down, an IO site the other one does not use, then the bits set are exactly those of the two. (That they always are is refuted: a design that steps down one IO site of a tile sets the STEPDOWN bit of the other one too; assembled with a design that only uses the other one, with a pull-down, this bit is lost.)", "quantifier": "all pairs of designs, databases in the documented form whose segment bits lie inside the frames, iteration orders", "why_tests_cant": "A test combines two designs; that acceptance is closed under combination, and which bits a combination can add or lose, is a statement about all pairs of designs and all databases.", "anchors": ["fpga/assembler.cc:AssembleFrames", "fpga/database.cc:PartDatabase::ConfigBits", "fpga/assembler.cc:FindPUDCBTileSite", "fpga/assembler.cc:AddStepDownFeatures"]}
{"id": "C118", "title": "Lines can be taken away from an accepted design, if no IO site of a bank that steps down falls out of use", "statement": "Let fpga-as end with exit status 0 on a FASM text, and let a second text have only lines of it (some taken away, in any order). If, in the banks in which the second text still steps down, each IO site that the first text uses is used by the second one too, then the second text is accepted with the same database and part, whatever the iteration orders. Its file sets no bit that the file of the first does not set, and each bit it no longer sets was set by a feature that was taken away, or a feature that was taken away asks for STEPDOWN. (That any lines can be taken away is refuted: with a database that lists a pull-down for the second IO site of a tile but no STEPDOWN, a design that uses this site is accepted, and the same design without the line of the pull-down crashes the program: with the site out of use a STEPDOWN feature is implied for it that the database does not list.)", "quantifier": "all designs and all selections of their lines, databases in the documented form whose segment bits lie inside the frames, iteration orders", "why_tests_cant": "A test removes one line of one design; that no removal can break a design or add a bit, and the exact exception, is a statement about all designs, selections and databases.", "anchors": ["fpga/assembler.cc:AssembleFrames", "fpga/assembler.cc:AddStepDownFeatures", "fpga/database.cc:PartDatabase::ConfigBits"]}
{"id": "C119", "title": "A text whose lines are accepted one by one is accepted: a refused design has a refused line", "statement": "If, for some database, part, date, time and output, fpga-as ends with exit status 0 on each line of a FASM text taken as a text of its own, then it ends with exit status 0 on the whole text (which has a line), whatever the iteration orders: what makes a design fail is always a single line, so bisecting a refused design finds one. Conversely, if a text is accepted and no feature of it asks for STEPDOWN, then each line of it is accepted alone, and so is every selection of its lines. (With STEPDOWN the converse is refuted: the STEPDOWN line of an accepted design crashes the program when it is alone, because it implies a feature for the other IO site of the tile that the database does not list and that the rest of the design kept from being implied.)", "quantifier": "all texts, databases in the documented form whose segment bits lie inside the frames, iteration orders", "why_tests_cant": "A test tries some designs; that no combination of individually accepted lines fails is a statement about all texts and databases.", "anchors": ["fpga/assembler.cc:AssembleFrames", "fpga/assembler.cc:AddStepDownFeatures", "fpga/database.cc:PartDatabase::ConfigBits"]}
