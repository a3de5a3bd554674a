#!/usr/bin/env python3
"""Write MANIFEST.json. Run from /verif."""
import json
C = []
def claim(p, status, theorems, note):
    C.append({"property": p, "status": status, "theorems": theorems, "note": note})

claim("C01", "proved", ["C01_uuid_text_roundtrip", "C01_exact", "C01_origin_top_bits_refuted"],
      "All UUIDs whose origin flag nibble is 0..3; the refuted theorem shows the condition is needed.")
claim("C02", "proved", ["C02_uuid_parser_exact"], "Every byte string.")
claim("C03", "proved", ["C03_uuid_text_canonical"], "")
claim("C04", "proved", ["C04_word_text_order"], "")
claim("C05", "proved", ["C05_uuid_order"], "")
claim("C06", "proved", ["C06_hybrid_time"], "gmtime itself is outside the model: the calendar fields are the input.")
claim("C07", "proved", ["C07_key_codec_and_order", "C07_exact", "C07_flags_lost_refuted"],
      "The refuted theorem shows that ids with other version or variety flags are not recovered.")
claim("C08", "proved", ["C08_form_registry", "C08_form2uuid_bounds_refuted"],
      "The refuted theorem gives the exact range of indices read out of bounds.")
claim("C09", "proved", ["C09_utf8", "C09_reader", "C09_canonical", "C09_reader_refuted", "C09_canonical_utf8_refuted"],
      "The refuted theorem shows that overlong forms are accepted.")
claim("C10", "proved", ["C10_utf16", "C10_read", "C10_read_standard", "C10_utf16_standard_refuted", "C10_char_refuted"], "")
claim("C11", "proved", ["C11_armour", "C11_base64_by_bit_length_refuted", "C11_alphabet"], "")
claim("C12", "proved", ["C12_strings", "C12_reader"], "Frame level, both directions, for a frame of one op with one string; C12_reader: one step of the reader on any text.")
claim("C13", "proved", ["C13_integers", "C13_full_range_refuted"],
      "Literal grammar and value in CodecSpec.v; overrun of the print buffer is a distinct outcome of the model.")
claim("C14", "proved", ["C14_parser_safety", "C14_float_fits", "C14_overlong_word_refuted"],
      "Reads outside the buffer are excluded by the ranges of all atoms and by the structure of the automaton interpreter; the refuted theorem shows the assertion that an over-long word trips.")
claim("C15", "proved", ["C15_sticky", "C15_op_after_error_refuted"], "")
claim("C16", "proved", ["C16_roundtrip", "C16_closed_span_refuted", "C16_closed_uuid_span_refuted", "C16_wide_span_refuted",
      "C16_first_fatal_refuted", "C16_float_like_refuted"],
      "Floats are their texts (printf and strtod are outside the model). The refuted theorems show that the conditions are needed.")
claim("C17", "proved", ["C17_sequential_id"], "")
claim("C18", "proved", ["C18_split"], "")
claim("C19", "proved", ["C19_sorted_union", "C19_text_reader"],
      "For any cursor type; C19_text_reader shows that the cursors opened by MergeFrames on text are such readers.")
claim("C20", "proved", ["C20_convergence", "C20_grouping"], "Ops are compared without terminators, which the builder sets anew.")
claim("C21", "proved", ["C21_meta"], "")
claim("C22", "proved", ["C22_causal_merge", "C22_self_merge_doubles", "C22_idempotence_refuted"],
      "The last two theorems show what happens to pieces that share ops.")
claim("C23", "proved", ["C23_status"], "")
claim("C24", "proved", ["C24_max", "C24_text_integers", "C24_signed", "C24_negative_refuted", "C24_empty_register_refuted"],
      "strtod is outside the model: any assignment of bits to float texts.")
claim("C25", "proved", ["C25_forms", "C25_release"], "")
claim("C26", "proved", ["C26_flags", "C26_success", "C26_undo_refuted"],
      "path and positions are plain vectors in the model, which C35 justifies.")
claim("C27", "proved", ["C27_bounds", "C27_any_frame", "C27_refuted"], "")
claim("C28", "proved", ["C28_write", "C28_batch", "C28_read", "C28_open", "C28_history"],
      "Generic in the frame type but for C28_history. The B-tree multimap is a sorted list; a merge that runs out of the caller's control is an oracle in the generic theorems.")
claim("C29", "proved", ["C29_walk", "C29_seek", "C29_reseek_refuted", "C29_stale_merge_refuted", "C29_prev_value_refuted"], "Generic in the frame type.")
claim("C30", "proved", ["C30_failed_read", "C30_text"], "")
claim("C31", "proved", ["C31_clock", "C31_increasing", "C31_see", "C31_refused", "C31_calendar", "C31_wrong", "C31_poisoned", "C31_never_refuted", "C31_boot_refuted"],
      "gmtime is outside the model: any reading, C31_calendar links calendar fields to readings.")
claim("C32", "proved", ["C32_meta", "C32_extend", "C32_merkle", "C32_save_load", "C32_reload", "C32_number_id_refuted"],
      "For any function sha with 32-byte results in place of SHA-512/256; collisions are explicit in the statement.")
claim("C33", "proved", ["C33_image", "C33_stable", "C33_span_refuted", "C33_far_refuted"],
      "SHA-512/256 itself is not modelled; strtod is any assignment of bits to float texts.")
claim("C34", "proved", ["C34_covers", "C34_monotone"], "")
claim("C35", "proved", ["C35_uuid_stack", "C35_position_stack", "C35_advance", "C35_advance_refuted", "C35_advance_far"], "")
claim("C36", "proved", ["C36_walk", "C36_read", "C36_text_read", "C36_branch", "C36_prev_refuted", "C36_no_header_refuted"],
      "Both stores in memory. The frame shown for a failed merge is an oracle.")
claim("C37", "proved", ["C37_accepted", "C37_rejected", "C37_atomic", "C37_clean", "C37_names_refuted", "C37_unstamped_refuted", "C37_name_dropped_refuted",
      "C37_malformed_refuted", "C37_comment_refuted", "C37_query_refuted"],
      "The branch's store is a parameter (any behaviour of its reads and writes); runs that abort or do not end within the fuel are excluded. The refuted theorems use a store with the merge rules of the in-memory one that reads do not change.")
claim("C38", "proved", ["C38_chain", "C38_frame", "C38_one_frame_refuted", "C38_forged_refuted", "C38_phantom_refuted"],
      "What is found in the store is stated by reads of the joined store: chain records and object logs.")
claim("C39", "proved", ["C39_compare", "C39_equivalence", "C39_unmoved", "C39_malformed_refuted", "C39_comment_refuted"],
      "strtod is any assignment of 64-bit words to float texts.")
claim("C40", "proved", ["C40_large_literal"], "")
claim("C41", "proved", ["C41_hash_text", "C41_hex", "C41_hex_tells", "C41_hex_iff", "C41_hex_matches", "C41_hash_roundtrip_refuted", "C41_hex_refuted"],
      "SHA-512/256 itself is not modelled; the theorem is about the texts of hash values.")
claim("C42", "proved", ["C42_abbreviated_hash_match"], "")
claim("C43", "proved", ["C43_grammar"], "The grammar is the inductive definition frame_lit in TextSpec.v; comments are not part of it.")

claim("C44", "proved", ["C44_text_merge", "C44_union", "C44_regroup", "C44_causal", "C44_log_span_refuted", "C44_escaped_refuted"],
      "Composition of C19-C22, C43 and C16 for text: the cursors visited while a frame is read can be written back (TextCursors.v), and the merge appends only such cursors (MergeKeeps.v).")
claim("C45", "proved", ["C45_nothing", "C45_union", "C45_schedule", "C45_same_as_memory", "C45_log", "C45_last", "C45_no_rule", "C45_rga", "C45_rga_refuted", "C45_log_span_refuted"],
      "RocksDB is modelled by its contract: a value and merge operands per key, any neighbouring operands replaced by their partial merge, the value and the oldest ones by their full merge, failures leave them. The room of all ops written under the key is below 4 GB (a static bound; the sizes of the frames it ever holds follow).")
claim("C46", "proved", ["C46_walk", "C46_shown", "C46_seek", "C46_hidden_refuted"],
      "The iterator sees the family at the time it was made, as RocksDB promises; merges that abort are excluded.")
claim("C47", "proved", ["C47_opens", "C47_tip", "C47_created", "C47_life", "C47_restart", "C47_reopen", "C47_iff", "C47_barred", "C47_zero", "C47_never", "C54_forward", "C47_unopened_refuted", "C47_phantom_refuted"],
      "The commit code of C37 over the RocksDB model of C45; other branches of the replica and failures of the database are not modelled; runs that abort or do not end within the fuel are excluded.")
claim("C48", "proved", ["C48_log", "C48_state", "C48_event", "C48_created", "C48_life", "C48_span_refuted"],
      "Over the branch model of C47; frames in canonical text (what the builder writes); the causal tree forms and MAX states are not covered, their logs are.")
claim("C49", "proved", ["C49_fork", "C49_log", "C49_state", "C49_text", "C49_answer", "C49_lost", "C49_life", "C49_part_refuted", "C49_text_refuted"],
      "Over the branch model of C47; hypotheses on texts and sizes as in C48. The new yarn has no branch before.")
claim("C50", "proved", ["C50_names", "C50_last", "C50_life", "C50_tick_refuted", "C50_restart_refuted"],
      "Over the branch model of C47; hypotheses on texts and sizes as in C48 (keep_bound: distinct ids, no id directly after another without a reference to it).")
claim("C51", "proved", ["C51_split", "C51_state", "C51_rga", "C51_rga_limit", "C51_version", "C51_recall", "C51_present", "C51_span_refuted", "C51_places_refuted", "C51_garbage_refuted"],
      "C51_split is about any text. C51_state and C51_rga need a canonical readable log (frame_lit canon) of mergeable ops, the version not followed by an op that could continue its span (settled) and references pointing back. C51_recall and C51_present are over the branch model of C47, hypotheses as in C48.")
claim("C52", "proved", ["C52_append", "C52_queries", "C52_failed", "C52_absent", "C52_kept", "C52_history", "C52_log", "C52_older", "C52_received", "C52_get", "C52_span_refuted", "C52_removal_refuted", "C52_neighbours_refuted", "C52_log_refuted"],
      "C52_queries is about any states that can be copied one after another (good_calls of the replayed ops). C52_kept, C52_history and C52_older have the hypotheses of C48 (keep_bound); C52_history starts at a branch with a last event. C52_log and C52_older are about queries answered with OK.")
claim("C53", "proved", ["C53_text", "C53_runs", "C53_merged", "C53_undefined", "C53_queries", "C53_texts", "C53_next_refuted", "C53_lone_refuted", "C53_words_refuted", "C53_abort_refuted"],
      "C53_text, C53_runs, C53_merged: one query in the frame; C53_queries: any number of queries for states and texts, what is appended being writable (good_calls), which C53_texts shows of texts alone. Hiding is C26's (hidden); the marks say which ops of the stored text are inside spans (frame_marked, proved of every text the builder makes). Elements are strings without the code points 0 and 12. C53_merged has the hypotheses of C44_causal.")
claim("C54", "proved", ["C54_lost", "C54_new", "C54_text", "C54_texts", "C54_forward", "C54_ghost", "C54_ghost_refuted", "C54_abort_refuted"],
      "C54_lost is over runs of frames and restarts without compactions, for keys other than Key::ZERO. C54_text is about one write in the frame, C54_texts about any number, each op a chunk of its own: the stamp of the last write is ahead of the last event, the stored frames pass the scan (C26_success, C27 say when). The difference of two empty texts is taken to be empty.")
claim("C55", "proved", ["C55_apart", "C55_open", "C55_branch", "C55_created", "C55_forked"],
      "Over the branch model of C47, a list of branches sharing the clock. C55_branch needs a branch with a last event of its yarn (healthy, as after the first opening). The database itself does not fail.")
claim("C56", "proved", ["C56_life", "C56_new", "C56_start", "C56_never_refuted", "C56_zero_refuted", "C56_fresh_refuted"],
      "Runs that abort or do not end within the fuel are excluded; the fuel is below 2^61. careful says which calls and clocks are allowed. RocksDB's own failures are not modelled.")
claim("C57", "proved", ["C57_later", "C57_dropped_refuted"], "Hypotheses as in C56; not for transcendent branches, which start at time 0.")
claim("C58", "proved", ["C58_active", "C58_forgotten", "C58_restored_refuted"], "Over the replica model of C55.")
claim("C59", "proved", ["C59_last", "C59_update", "C59_update_string", "C59_newest", "C59_history", "C59_write", "C59_old_refuted", "C59_foreign_refuted", "C59_number_refuted", "C59_missing_refuted"],
      "For text frames; hypotheses of C59_history as in C48. strtod is a parameter; number() is only claimed to be there, its value is refuted. The unordered_map is a list of which the newest entry of a key counts.")
claim("C60", "proved", ["C60_order", "C60_frames", "C60_reopened_refuted", "C60_max_refuted", "C60_joined_refuted"],
      "Frames as in C48: canonical text with events only. C60_order gives the order for the chains that satisfy `apart`; C60_frames says which frames do. The refuted theorems show that both parts of `apart` are needed.")
claim("C61", "proved", ["C61_objects", "C61_own_types_refuted", "C61_number_refuted", "C61_punctuation_refuted", "C61_phantom_refuted"],
      "Hypotheses as in C60. Which events belong to an object is defined by following references among the stored events (`belongs`), not by the store's keys.")
claim("C62", "proved", ["C62_agree", "C62_delivered"],
      "Hypotheses as in C60 for both branches. C62_agree is for the stored events, C62_delivered for the events that came, if none comes twice and all objects are LWW, MX or yarns.")
claim("C63", "proved", ["C63_written", "C63_typed", "C63_one"], "For all words; the kind of a text is defined by the characters (kind).")
claim("C64", "proved", ["C64_effect", "C64_fails", "C64_reads", "C64_session", "C64_init", "C64_create", "C64_name", "C64_drop", "C64_tag_refuted"],
      "One process per command; runs that abort or run out of fuel are excluded, a crash after which nothing was written is an outcome (CCrash). Not for help, version, test, repair and init in the directory of a replica.")
claim("C65", "proved", ["C65_names", "C65_means", "C65_hasty_refuted", "C65_back_refuted", "C65_number_refuted"],
      "From init on. spaced: each process starts two ticks or more after the clocks of those before. The number of commands is below the fuel and 2^24.")
claim("C66", "proved", ["C66_named", "C66_list", "C66_after", "C66_after_list", "C66_named_on", "C66_crash_refuted"],
      "The order in which an unordered_map is walked is any permutation of its entries (the last hypothesis of the section).")
claim("C67", "proved", ["C67_fork", "C67_get", "C67_new", "C67_write", "C67_on", "C67_hop", "C67_records", "C67_recall", "C67_hop_refuted", "C67_recall_refuted"],
      "C67_records is about sequences of commands without compactions, which change records but not what is read (C45).")
claim("C68", "proved", ["C68_parts", "C68_split", "C68_span_refuted"],
      "For scripts whose first op is a comment with a terminator; the strings of a script are in the form the builder writes (the grammar of C43 with canonical code points).")
claim("C69", "proved", ["C69_verdict", "C69_script", "C69_header", "C69_state", "C69_syntax_refuted", "C69_empty_refuted"],
      "C69_verdict and C69_script: what each part is answered is given by the model of ReceiveFrame. C69_state: for parts that write events and ask for the state of an object (not an RGA), in terms of the events. The frame comparison is that of C39.")
claim("C70", "proved", ["C70_reads", "C70_whole", "C70_moves", "C70_caught", "C70_part", "C70_empty_part", "C70_found", "C70_cut_off", "C70_equal", "C70_hash", "C70_made", "C70_made_caught", "C70_shorten", "C70_ranges", "C70_safe", "C70_shorten_refuted", "C70_made_refuted", "C70_wrap_refuted", "C70_grow_refuted", "C70_size_refuted", "C70_hash_refuted"],
      "Memory is one array of bytes, pointers are offsets in it. std::hash is a parameter, a size_t is 8 bytes; the alignment of the words hash() reads is not modelled.")
claim("C71", "proved", ["C71_string", "C71_prefix", "C71_zero", "C71_middle_refuted", "C71_end_refuted"],
      "Memory as in C70; the constructor of std::string is modelled by the bytes before the first zero and a substring. The model of dump prints the value itself.")
claim("C72", "proved", ["C72_filed", "C72_agree", "C72_text", "C72_state", "C72_recovers", "C72_agree_recovered", "C72_text_recovered", "C72_pieces_refuted"],
      "Branch as in C47-C48, RocksDB as in C45: any compaction of a run of records, none of which fails. C72_filed, C72_agree and C72_text speak of the events stored under the object, as the records of the stored chains tell; C72_state and C72_recovers tie these to the references for events that are not in spans, where the log (C48, C61) can be trusted.")
claim("C73", "proved", ["C73_names", "C73_sent", "C73_received", "C73_printed", "C73_comment", "C73_first", "C73_exact", "C73_twin", "C73_look_refuted"],
      "The other models have statuses as enumerations; C73_names says that the constants they stand for are distinct.")
claim("C74", "proved", ["C74_effect", "C74_life", "C74_again", "C74_clock", "C74_names", "C74_refusal_refuted", "C74_order_refuted"],
      "C74_effect is for every database in good order and leaves open whether a new first event is accepted; C74_again shows that it is not for a replica made by init, if the text of its first event does not look like a float. RocksDB is taken to refuse to open a database without all its families; files as in C64.")
claim("C75", "proved", ["C75_dump", "C75_all", "C75_whole", "C75_metadata", "C75_crash", "C75_ids_refuted", "C75_crash_refuted", "C75_hidden_refuted"],
      "RocksDB iteration as in C46; the text of a record is that of C71 (a slice at the beginning of its buffer). C75_metadata is for every history of a directory as in C74.")
claim("C76", "proved", ["C76_names", "C76_yarns", "C76_found", "C76_create", "C76_drop", "C76_iff", "C76_default_refuted", "C76_bits_refuted"],
      "RocksDB keeps families by their names, refuses a name in use and does not drop the default family.")
claim("C77", "proved", ["C77_code", "C77_back", "C77_forms", "C77_byte_refuted"],
      "The mappers themselves: txt in C53, the others are not called.")
claim("C78", "proved", ["C78_gc", "C78_plain", "C78_none", "C78_caught", "C78_keys", "C78_merge", "C78_unmoved", "C78_meta", "C78_last_refuted", "C78_safe_refuted"],
      "Frames of the grammar of C43 whose ops can be written together as in C44. The unordered_map is taken to keep keys with the same bytes apart from no other (C70: equal slices have equal hashes). GC of logs and texts only return a status; GC of chains and matrices does not compile if instantiated.")
claim("C79", "proved", ["C79_utf8", "C79_part", "C79_written", "C79_text", "C79_get", "C79_get_empty", "C79_amend", "C79_bad_byte_refuted", "C79_get_refuted", "C79_amend_refuted"],
      "C79_text: values as in C16 (no zero characters in strings). A float is given by the text WriteFloat writes. Fewer than 2^30 code points in an op.")
claim("C80", "proved", ["C80_same", "C80_equal", "C80_bad", "C80_unmoved", "C80_terms", "C80_terms_refuted"],
      "Frames of the grammar of C43 with canonical characters; only a test calls Reserialize.")
claim("C81", "proved", ["C81_fields", "C81_agree"],
      "Lives of a branch as in C60 and C62 (events before NEVER, no spans of characters, no object with an id that reads as a number).")
claim("C82", "proved", ["C82_report", "C82_blind", "C82_gap", "C82_no_break", "C82_hash_refuted"],
      "The function is compiled into the program but called by no command. SHA-512/256 is a parameter with 32 bytes of output.")
claim("C83", "proved", ["C83_steps", "C83_agree", "C83_in_turn", "C83_recovers", "C83_never_lost", "C83_refused_refuted", "C83_recovers_refuted", "C83_never_lost_refuted"],
      "Pieces are texts that list causal trees with disjoint ids and ops that can be written together as in C44.")
claim("C84", "proved", ["C84_unescape", "C84_back", "C84_token", "C84_utf8", "C84_read", "C84_chars", "C84_frame", "C84_unicode_refuted", "C84_bounds_refuted", "C84_feed_refuted"],
      "The functions are compiled into the library but the program reads and writes strings one code point at a time (C12).")
json.dump({"claims": C}, open("MANIFEST.json", "w"), indent=1)
