{
 "C08": {
  "status": "proved",
  "note": "Proved for parts whose description fits the address fields. C08_cfg_clb_refuted: a CFG_CLB bus is filed by the code under block type 0, so its frames (block type 2) are not recognised; no Series-7 part of the database lists one. C08_refuted_unused_bits_must_be_zero: bits 31..26 of an address are ignored by the validity test and kept by the walk."
 },
 "C09": {
  "status": "proved",
  "note": "Proved under the no-holes hypothesis of the property (C09_regular_no_holes gives a simple sufficient condition). C09_holes_refuted shows the hypothesis is needed."
 },
 "C11": {
  "status": "proved",
  "note": "C11_terminates_exactly characterises termination; C11_too_many_rows_refuted is the earlier counterexample to unconditional termination, an instance of C11_other_parts_loop_for_ever."
 },
 "C14": {
  "status": "proved",
  "note": ""
 },
 "C22": {
  "status": "proved",
  "note": ""
 },
 "C30": {
  "status": "proved",
  "note": "C30_tick_ended_line_refuted shows that the excluded lines really behave differently."
 },
 "C34": {
  "status": "proved",
  "note": "C34_*_refuted: concrete texts on which the code reads past its end or shifts too far, so both exclusions are needed."
 },
 "C36": {
  "status": "proved",
  "note": "C36_unpadded_value_refuted: the natural 24-digit form of a 96-bit value is misread."
 },
 "C37": {
  "status": "proved",
  "note": "C37_overflow_reported_refuted: the expected behaviour (an error) does not hold."
 },
 "C38": {
  "status": "proved",
  "note": "C38_parse_goes_on_refuted: the parse does not stop at a refusal."
 },
 "C49": {
  "status": "proved",
  "note": "C49_banks_listed_once_refuted: the bank list of a tile can contain duplicates (exactly one entry per table entry, C49_banks_of_a_tile)."
 },
 "C64": {
  "status": "proved",
  "note": "C64_sites_are_renamed_refuted: a concrete SING tile where the site in front of the remainder is not renamed."
 },
 "C66": {
  "status": "proved",
  "note": "C66_every_stepdown_name_counts_refuted: a STEPDOWN later in the name is not noticed."
 },
 "C57": {
  "status": "proved",
  "note": "C57_file_without_final_newline_refuted: 4096 bytes without a final newline make the reader touch the byte after the mapping."
 },
 "C58": {
  "status": "proved",
  "note": "C58_only_digits_accepted_refuted: blanks and a '+' are accepted too (as absl documents)."
 },
 "C60": {
  "status": "proved",
  "note": "C60_unparsable_is_an_error_refuted: the naive expectation (an unparsable address is an error) is false."
 },
 "C61": {
  "status": "proved",
  "note": "C61_malformed_is_reported_refuted: concrete documents that abort instead of being reported. The JSON text parser (rapidjson) is not modelled; the theorems range over parsed documents and over parse failure."
 },
 "C18": {
  "status": "proved",
  "note": "C18_long_field_refuted: the earlier expectation (the length is always right) is false for every part name of 65535 bytes or more."
 },
 "C19": {
  "status": "proved",
  "note": "C19_every_destination is the full statement; C19_pipe_refuted and C19_append_refuted refute the expectation that the container is always right."
 },
 "C21": {
  "status": "proved",
  "note": "C21_truncated_tail_refuted: the expectation that reading is always safe is false."
 },
 "C25": {
  "status": "proved",
  "note": "C25_foreign_frame_refuted: a concrete case against the expectation that foreign frames are harmless."
 },
 "C29": {
  "status": "proved",
  "note": "C29_ecc_refuted: the expectation that emitted frames always carry a valid ECC is false."
 },
 "C42": {
  "status": "proved",
  "note": "C42_implied_bit_lost_refuted: the exception really happens."
 },
 "C77": {
  "status": "proved",
  "note": "C77_two_pudcb_pins_refuted shows that the hypothesis on PUDC_B pins is needed."
 },
 "C80": {
  "status": "proved",
  "note": "C80_line_numbers_of_the_tool_refuted: the expectation that the number in a message of fpga-as is the number of the line is false; C80_the_tool_always_says_line_one is the general statement."
 },
 "C84": {
  "status": "proved",
  "note": "Proved for work lists whose items have different cache entries. C84_shared_entry_refuted: without this a process can be ended by an exception."
 },
 "C85": {
  "status": "proved",
  "note": "Proved for work lists whose items have different cache entries. C85_shared_entry_refuted: without this an empty entry can be published and believed for ever."
 },
 "C86": {
  "status": "proved",
  "note": "Proved for runs whose clang-tidy calls were not interrupted. C86_interrupted_refuted: an interrupted run exits 0 with nothing checked."
 },
 "C87": {
  "status": "proved",
  "note": "C87_double_include_refuted, C87_twin_headers_refuted: changes of headers that the key does not notice, as the property says."
 },
 "C88": {
  "status": "proved",
  "note": "C88_mention_refuted: a complaint mentioning another location is lost, as the property says."
 },
 "C89": {
  "status": "proved",
  "note": "C89_adjacent_refuted: the second of two adjacent complaints is not counted, as the property says."
 },
 "C92": {
  "status": "proved",
  "note": "C92_every_cut_is_safe_refuted: the stronger claim that every cut is reported as an error, or at least read without undefined behaviour, is false; the property states what happens at each cut."
 },
 "C94": {
  "status": "proved",
  "note": "C94_status_zero_means_complete_refuted: status 0 does not imply a complete file, as the property says."
 },
 "C100": {
  "status": "proved",
  "note": "Proved for texts without apostrophes. C100_apostrophe_refuted: with one in a file name the shell runs something else, as the property says."
 },
 "C101": {
  "status": "proved",
  "note": "C101_fingerprint_refuted: the fingerprint is an exclusive or, so it can be 0 whatever the configuration; the property claims no more than the 32 bits."
 },
 "C102": {
  "status": "proved",
  "note": "C102_dot_refuted, C102_idempotent_refuted: dots match any character and the clean-up is not idempotent; the property says the first and does not claim the second."
 },
 "C103": {
  "status": "proved",
  "note": "C103_no_worker_refuted: no worker when the number of processors is unknown, as the property says."
 },
 "C104": {
  "status": "proved",
  "note": "The texts made by libraries (a JSON value shown, rapidjson's parse error, strerror) are parameters. Refuted: that the message tells which file is at fault, and that the table it names is the one at fault."
 },
 "C105": {
  "status": "proved",
  "note": "The receiving device is an environment model written from UG470 (FpgaSpec), not code of /repo."
 },
 "C107": {
  "status": "proved",
  "note": "C107_damage_detected_refuted: the expectation that damage is noticed is false, as the property says. The device is the environment model FpgaSpec."
 },
 "C108": {
  "status": "proved",
  "note": "C108_unwritable_refuted: undefined behaviour with a summary file that cannot be opened, as the property says. Names are texts; no symbolic links inside the cache directory."
 },
 "C109": {
  "status": "proved",
  "note": "C109_refuted_one_database_or_the_other: an update is not atomic for a run; the rest holds for every sequence of replacements."
 },
 "C110": {
  "status": "proved",
  "note": "C110_always_noticed_refuted: a cut between lines is not noticed, as the property says. The part about cuts between lines is for databases in the documented form (hypotheses of C78)."
 },
 "C39": {
  "status": "proved",
  "note": "C39_escaped_backslash_refuted: a value ending in an escaped backslash is not recognised, as the property says (the FASM language allows it)."
 },
 "C112": {
  "status": "proved",
  "note": "C112_newer_database_same_file is the general theorem, C112_added_segment_bits and C112_added_pseudo_pips show that appended lines give such an edition. C112_any_added_line_refuted: a pseudo pip line for a name with segment bits hides them, silently."
 },
 "C113": {
  "status": "proved",
  "note": "C113_contradictions_are_noticed_refuted: a design in which one feature sets a bit and another clears it is accepted (exit 0); that is documented nowhere and the program has no check for it."
 },
 "C115": {
  "status": "proved",
  "note": "C115_without_the_sites_refuted: the statement's condition on the IO sites is needed; a site used only through cleared bits does not show in the frames, and the reassembled file has STEPDOWN set there."
 },
 "C116": {
  "status": "proved",
  "note": "C116_same_database_same_file is the general theorem (its hypothesis: the two directories say the same), C116_reordered_grid, _part, _types and _pins show that re-ordered files do. C116_repeated_entries_refuted: when a (name, bit) is given twice only the first entry counts, so the order of these lines matters; the claim excludes repeated entries."
 },
 "C117": {
  "status": "proved",
  "note": "Proved. C117_bits_add_up_refuted: without the exception for implied STEPDOWN features the bits are not the union: a bit of the first design's file is missing in the file of the two designs together."
 },
 "C118": {
  "status": "proved",
  "note": "Proved under the side condition on IO sites that the property states. C118_any_lines_refuted: without it the claim is false, taking away the line of a pull-down makes the program crash."
 },
 "C119": {
  "status": "proved",
  "note": "Proved, the converse for texts in which nothing asks for STEPDOWN, as the property states. C119_each_line_refuted: without that the converse is false."
 }
}
