{
 "claims": [
  {
   "property": "C01",
   "status": "proved",
   "theorems": [
    "C01_gap_buffer_is_a_string",
    "C01_unicode_sessions_are_clean",
    "C01_ascii_text_is_simple",
    "C01_clean_buffers_are_coherent",
    "C01_new_buffers_are_coherent",
    "C01_coherent_calls"
   ],
   "note": "Every session of calls that never juxtaposes text so that clusters merge. C01_unicode_sessions_are_clean shows UAX #29 sessions over single-char clusters, marked letters and flags qualify for any class table; C01_ascii_text_is_simple covers ASCII without carriage returns. C01_coherent_calls: single calls on any buffer that reads as its text, even if the call merges clusters."
  },
  {
   "property": "C02",
   "status": "proved",
   "theorems": [
    "C02_insert_integrity",
    "C02_delete_integrity",
    "C02_read_integrity",
    "C02_new",
    "C02_closed"
   ],
   "note": "Any valid text, any segmentation function."
  },
  {
   "property": "C03",
   "status": "proved",
   "theorems": [
    "C03_no_panic"
   ],
   "note": "UAX #29 rules over any class table that gives the newline char class LF."
  },
  {
   "property": "C04",
   "status": "proved",
   "theorems": [
    "C04_fresh_memory_invisible",
    "C04_capacity_invisible"
   ],
   "note": "Contents of fresh memory: any text and segmentation. Capacity: sessions that do not merge clusters; the unconditional claim is C47."
  },
  {
   "property": "C05",
   "status": "proved",
   "theorems": [
    "C05_insert_out_of_bounds",
    "C05_insert_out_of_bounds_any_text",
    "C05_delete_out_of_bounds",
    "C05_read_out_of_bounds"
   ],
   "note": "Insert clause for buffers that read as their text (coherent: new buffers and non-merging sessions, C01_clean_buffers_are_coherent, C01_new_buffers_are_coherent), or data that fits the gap; the unconditional claim is C48."
  },
  {
   "property": "C06",
   "status": "proved",
   "theorems": [
    "C06_delete_clamps"
   ],
   "note": "For buffers that read as their text (coherent: new buffers and non-merging sessions, C01_clean_buffers_are_coherent, C01_new_buffers_are_coherent)."
  },
  {
   "property": "C07",
   "status": "partial",
   "theorems": [
    "C07_answers_depend_on_text_partial",
    "C07_answers_depend_on_text_refuted",
    "C07_answers_of_a_marked_text",
    "C07_text_and_place_partial",
    "C07_as_new_exactly_when_partial",
    "C07_place_after_insert",
    "C07_place_after_delete",
    "C07_simple_histories_partial"
   ],
   "note": "Proved for buffers produced without merging clusters, after any calls at all if the input is made of simple clusters, and for every text that the answers depend on the text and one mark in it. The full statement is false of the code; the refuted theorem gives the witness. For every text: the answers are functions of the text and of the place where the last edit ended, and they are those of a new buffer exactly when no cluster straddles that place."
  },
  {
   "property": "C08",
   "status": "proved",
   "theorems": [
    "C08_origin",
    "C08_position_order",
    "C08_order_irreflexive",
    "C08_order_transitive",
    "C08_range_new",
    "C08_range_includes"
   ],
   "note": ""
  },
  {
   "property": "C09",
   "status": "proved",
   "theorems": [
    "C09_line_range_new",
    "C09_line_range_is_char_range",
    "C09_inclusive_range",
    "C09_delete_lines",
    "C09_delete_lines_inclusive"
   ],
   "note": "Deletion clause for buffers that read as their text (coherent: new buffers and non-merging sessions, C01_clean_buffers_are_coherent, C01_new_buffers_are_coherent)."
  },
  {
   "property": "C10",
   "status": "partial",
   "theorems": [
    "C10_distance_of_inserted_text_partial",
    "C10_distance_of_text",
    "C10_distances_add",
    "C10_add_assign",
    "C10_end_of_inserted_text",
    "C10_distance_exactly_when",
    "C10_distance_of_inserted_text_refuted"
   ],
   "note": "Proved for ASCII data, and for any data exactly when the distance is right: when the last line has as many bytes as clusters. The full Unicode statement is false because Distance::of_str counts bytes; witness in the refuted theorem."
  },
  {
   "property": "C11",
   "status": "proved",
   "theorems": [
    "C11_move_to_exact",
    "C11_move_to_is_in_bounds"
   ],
   "note": "Exact for buffers that read as their text (coherent: new buffers and non-merging sessions, C01_clean_buffers_are_coherent, C01_new_buffers_are_coherent); on any text move_to agrees with in_bounds."
  },
  {
   "property": "C12",
   "status": "proved",
   "theorems": [
    "C12_movement_stays_in_bounds",
    "C12_movement_from_in_bounds",
    "C12_movement_refines_spec",
    "C12_uax29_no_crlf"
   ],
   "note": "Any reachable buffer, any segmentation for in-bounds/no-panic; full movement specification for buffers that read as their text (coherent: new buffers and non-merging sessions, C01_clean_buffers_are_coherent, C01_new_buffers_are_coherent) without CRLF."
  },
  {
   "property": "C13",
   "status": "proved",
   "theorems": [
    "C13_vertical_movement",
    "C13_settled"
   ],
   "note": "For buffers that read as their text (coherent: new buffers and non-merging sessions, C01_clean_buffers_are_coherent, C01_new_buffers_are_coherent) without CRLF, cursors whose column is min(remembered column, line length) (kept by every movement)."
  },
  {
   "property": "C14",
   "status": "proved",
   "theorems": [
    "C14_left",
    "C14_right",
    "C14_start_of_line",
    "C14_end_of_line",
    "C14_left_any_text",
    "C14_start_of_line_any_text"
   ],
   "note": "Left and start of line for every buffer; right and end of line for buffers that read as their text (coherent: new buffers and non-merging sessions, C01_clean_buffers_are_coherent, C01_new_buffers_are_coherent)."
  },
  {
   "property": "C15",
   "status": "proved",
   "theorems": [
    "C15_first_line",
    "C15_last_line"
   ],
   "note": "For buffers that read as their text (coherent: new buffers and non-merging sessions, C01_clean_buffers_are_coherent, C01_new_buffers_are_coherent)."
  },
  {
   "property": "C16",
   "status": "partial",
   "theorems": [
    "C16_cursor_in_text_partial",
    "C16_cursor_in_text_refuted",
    "C16_first_line_recovers_partial",
    "C16_nothing_announced_before_partial"
   ],
   "note": "Proved for histories without delete_range, undo, redo and direct assignment to the position; for every call but that assignment, on texts of simple clusters, if no place before the cursor is announced; and for every text and history that move_to_first_line brings the cursor back. The full statement is false of the code; the refuted theorem gives witnesses for delete_range and undo."
  },
  {
   "property": "C17",
   "status": "proved",
   "theorems": [
    "C17_undo_redo",
    "C17_undo_redo_many"
   ],
   "note": "Any history, any number of edits; edits that do not merge clusters (C18_unicode_calls_are_legal shows which Unicode texts qualify)."
  },
  {
   "property": "C18",
   "status": "proved",
   "theorems": [
    "C18_text_is_timeline",
    "C18_legal_calls_return",
    "C18_unicode_calls_are_legal",
    "C18_unicode_texts_stay_simple"
   ],
   "note": "Timeline.v is the specification. Excludes redo/save in a group with edits, reload in an open group and delete_range with a missing end, for which C21, C22 and C24 show it false."
  },
  {
   "property": "C19",
   "status": "proved",
   "theorems": [
    "C19_group_is_atomic",
    "C19_empty_group"
   ],
   "note": ""
  },
  {
   "property": "C20",
   "status": "proved",
   "theorems": [
    "C20_edit_discards_future"
   ],
   "note": "Any text, any segmentation, any history."
  },
  {
   "property": "C21",
   "status": "partial",
   "theorems": [
    "C21_missing_end_is_lost_partial",
    "C21_undo_restores_refuted",
    "C21_delete_range_partial",
    "C21_insert_partial",
    "C21_fresh_is_undivided",
    "C21_replaced_is_undivided"
   ],
   "note": "False of the code: machine-checked counterexamples, and the proof that a range with a missing end is never restored. True, for every text, of ranges whose ends exist and of inserts that do not merge, while the buffer is in one piece (as after loading); for clean texts see C17, for what happens otherwise C68."
  },
  {
   "property": "C22",
   "status": "partial",
   "theorems": [
    "C22_redo_in_empty_group_partial",
    "C22_redo_in_group_refuted",
    "C22_redo_on_other_lines_partial"
   ],
   "note": "False of the code: machine-checked counterexample. True in a group without edits, and when the redone step and the edits of the group are within different lines."
  },
  {
   "property": "C23",
   "status": "proved",
   "theorems": [
    "C23_unmodified_is_synced",
    "C23_modified_is_exact",
    "C23_undo_to_save_point",
    "C23_edit_modifies"
   ],
   "note": "Sessions as in C18; C23_edit_modifies for any text."
  },
  {
   "property": "C24",
   "status": "partial",
   "theorems": [
    "C24_modified_in_group_partial",
    "C24_modified_refuted",
    "C24_modified_every_text_partial"
   ],
   "note": "False of the code: machine-checked counterexamples. Proved: what modified() answers while a group is open, and for every text and history that the answer is a function of the numbers of steps that can be undone and redone, of the one at which the text was saved, and of the edits in the open group (CountSpec.v)."
  },
  {
   "property": "C25",
   "status": "proved",
   "theorems": [
    "C25_pathless_is_modified"
   ],
   "note": "Any text, any segmentation."
  },
  {
   "property": "C26",
   "status": "proved",
   "theorems": [
    "C26_save",
    "C26_save_then_load",
    "C26_save_outcome",
    "C26_load",
    "C26_load_outcome",
    "C26_readable",
    "C26_saved_where_loaded"
   ],
   "note": "Any text, any links between names."
  },
  {
   "property": "C27",
   "status": "partial",
   "theorems": [
    "C27_failing_save_keeps_buffer_partial",
    "C27_failing_save_disk_partial",
    "C27_failing_save_refuted"
   ],
   "note": "First half proved, second half false of the code (File::create truncates)."
  },
  {
   "property": "C28",
   "status": "proved",
   "theorems": [
    "C28_reload",
    "C28_reload_outcome"
   ],
   "note": "Any text; undo clause outside groups."
  },
  {
   "property": "C29",
   "status": "proved",
   "theorems": [
    "C29_replace_cursor",
    "C29_replace_cursor_plain",
    "C29_replace_text",
    "C29_replace_same"
   ],
   "note": "Any text."
  },
  {
   "property": "C30",
   "status": "proved",
   "theorems": [
    "C30_announced_lines",
    "C30_change_is_announced",
    "C30_announced_by_calls"
   ],
   "note": "Any text, any segmentation."
  },
  {
   "property": "C31",
   "status": "partial",
   "theorems": [
    "C31_search_every_text_partial",
    "C31_newline_never_found_partial",
    "C31_columns_partial",
    "C31_search_ascii_partial",
    "C31_search_bytes_partial",
    "C31_search_reads_back_partial",
    "C31_search_refuted"
   ],
   "note": "Exact for every text and needle with byte offsets; on ASCII text the offsets are columns and reading back gives the needle; on any text it is proved exactly when an offset works as a column. The general statement is false of the code (byte offsets, needles with a newline); witnesses in the refuted theorem."
  },
  {
   "property": "C32",
   "status": "partial",
   "theorems": [
    "C32_addressable_lines",
    "C32_addressable_lines_when_new",
    "C32_table_has_one_carriage_return",
    "C32_line_count",
    "C32_line_count_addresses_partial",
    "C32_line_count_refuted"
   ],
   "note": "The count is proved for any text; so is the number of addressable lines, which is smaller by the number of CRLF pairs. The full statement is therefore false for CRLF text (witness)."
  },
  {
   "property": "C33",
   "status": "proved",
   "theorems": [
    "C33_file_name",
    "C33_file_extension",
    "C33_file_extension_text",
    "C33_file_extension_lossy",
    "C33_no_file_extension"
   ],
   "note": "Any path."
  },
  {
   "property": "C34",
   "status": "proved",
   "theorems": [
    "C34_line_iterator"
   ],
   "note": "Any text."
  },
  {
   "property": "C35",
   "status": "proved",
   "theorems": [
    "C35_tokens_reproduce"
   ],
   "note": "Any parser whose events are at char boundaries of the line; syntect itself is a parameter."
  },
  {
   "property": "C36",
   "status": "proved",
   "theorems": [
    "C36_token_positions",
    "C36_token_positions_single_chars",
    "C36_split_cluster_shifts"
   ],
   "note": "Proved for tokens on cluster boundaries, in particular texts of single-char clusters; C36_split_cluster_shifts shows the condition is needed."
  },
  {
   "property": "C37",
   "status": "proved",
   "theorems": [
    "C37_token_scopes"
   ],
   "note": "Any parser whose events are ordered and at char boundaries; also for iterations that end in an error."
  },
  {
   "property": "C38",
   "status": "proved",
   "theorems": [
    "C38_tokens_end",
    "C38_token_errors",
    "C38_iteration_can_resume"
   ],
   "note": "Any parser whose events are at char boundaries, any failure point. Resumption after an error is shown possible."
  },
  {
   "property": "C39",
   "status": "proved",
   "theorems": [
    "C39_workspace_is_a_list",
    "C39_no_panic"
   ],
   "note": "Any buffers, any text; no panic under UAX #29 rules. Assigning the public field current_buffer itself is covered by C53 only."
  },
  {
   "property": "C40",
   "status": "proved",
   "theorems": [
    "C40_ids_distinct",
    "C40_ids_increase",
    "C40_ids_kept",
    "C40_new_buffer_is_next"
   ],
   "note": "Ids as given by the workspace; assigning the public id field is excluded where ids are compared."
  },
  {
   "property": "C41",
   "status": "proved",
   "theorems": [
    "C41_selection"
   ],
   "note": "Any sequence of calls."
  },
  {
   "property": "C42",
   "status": "proved",
   "theorems": [
    "C42_reopening_selects",
    "C42_opening_adds",
    "C42_no_duplicates",
    "C42_failing_open",
    "C42_open_fails_when"
   ],
   "note": "Any disk and changes of it in between."
  },
  {
   "property": "C43",
   "status": "proved",
   "theorems": [
    "C43_next_then_previous",
    "C43_previous_then_next",
    "C43_full_circle",
    "C43_each_met_once"
   ],
   "note": "Any workspace."
  },
  {
   "property": "C44",
   "status": "proved",
   "theorems": [
    "C44_close"
   ],
   "note": "Any workspace."
  },
  {
   "property": "C45",
   "status": "proved",
   "theorems": [
    "C45_paths",
    "C45_join"
   ],
   "note": "Paths are sequences of components."
  },
  {
   "property": "C46",
   "status": "proved",
   "theorems": [
    "C46_tokens",
    "C46_tokens_outcome"
   ],
   "note": "Excludes assigning None to the public syntax_definition field."
  },
  {
   "property": "C47",
   "status": "partial",
   "theorems": [
    "C47_insert_exactly_when_partial",
    "C47_sessions_alike_partial",
    "C47_capacity_invisible_refuted",
    "C47_enough_room_partial"
   ],
   "note": "False of the code (machine-checked counterexample). Proved for every text when all inserts fit, and in C04 for texts whose clusters do not merge. Exactly, for every text: an insert into two buffers with the same text and the same place of the last edit leaves the same again exactly when both have room for it or neither has, or its position is found at the same place with the mark and without it; sessions in which each insert is so give the same answers."
  },
  {
   "property": "C48",
   "status": "partial",
   "theorems": [
    "C48_exactly_when",
    "C48_growing_insert",
    "C48_insert_out_of_bounds_refuted",
    "C48_fitting_insert_partial"
   ],
   "note": "False of the code (machine-checked counterexample). Proved for every text exactly when it holds: when the insert fits, or the text taken as a whole has no such position; delete and read in C05."
  },
  {
   "property": "C49",
   "status": "proved",
   "theorems": [
    "C49_no_panic",
    "C49_text_is_valid"
   ],
   "note": "UAX #29 rules over any class table that gives the newline char class LF."
  },
  {
   "property": "C50",
   "status": "partial",
   "theorems": [
    "C50_exactly_when",
    "C50_nonempty_lexemes_partial",
    "C50_empty_lexeme_refuted"
   ],
   "note": "False of the code (witness); proved: only the last lexeme of a line can be empty, and exactly when one is."
  },
  {
   "property": "C51",
   "status": "proved",
   "theorems": [
    "C51_added_syntax",
    "C51_updated_syntax"
   ],
   "note": "find_syntax_by_extension and plain text are parameters."
  },
  {
   "property": "C52",
   "status": "proved",
   "theorems": [
    "C52_only_assigned"
   ],
   "note": "Any text."
  },
  {
   "property": "C53",
   "status": "partial",
   "theorems": [
    "C53_taken_buffer_partial",
    "C53_taken_buffer_refuted"
   ],
   "note": "First half proved; that nothing is left is false of the code (an empty placeholder stays in the list)."
  },
  {
   "property": "C54",
   "status": "proved",
   "theorems": [
    "C54_cursor_stays"
   ],
   "note": "Any text, segmentation and buffer state."
  },
  {
   "property": "C55",
   "status": "proved",
   "theorems": [
    "C55_announced_exactly"
   ],
   "note": "Any text, segmentation and buffer state; the announcements of undo and redo are in C56."
  },
  {
   "property": "C56",
   "status": "proved",
   "theorems": [
    "C56_buffer_is_an_editor",
    "C56_simple_texts"
   ],
   "note": "Full refinement to the editor of Editor.v, for legal calls (the conditions of the timeline properties C14 to C22)."
  },
  {
   "property": "C57",
   "status": "proved",
   "theorems": [
    "C57_no_borrow_conflict"
   ],
   "note": "Heap model with RefCell borrow states; the callback borrows the storage mutably."
  },
  {
   "property": "C58",
   "status": "proved",
   "theorems": [
    "C58_value_model",
    "C58_reachable",
    "C58_cursor_shares"
   ],
   "note": "Relates the model with references to Buffer.v; calls on the disk included."
  },
  {
   "property": "C59",
   "status": "partial",
   "theorems": [
    "C59_attached_partial",
    "C59_new_clone",
    "C59_follows_exactly_until",
    "C59_left_behind",
    "C59_detached_forever",
    "C59_clones_follow_partial",
    "C59_clones_follow_refuted"
   ],
   "note": "False of the code in general: [replace] gives the buffer new storage and clones keep the old one (C59_clones_follow_refuted). Proved for every ordinary program: a clone on the buffer's storage moves exactly as the buffer's own cursor would; a new clone is on it; it stays there exactly until a call replaces the whole text (replace or reload with another text, or undo/redo of one); then it moves for ever in a text no ordinary call changes, which for replace and reload is the text from before the call."
  },
  {
   "property": "C60",
   "status": "partial",
   "theorems": [
    "C60_attached_partial",
    "C60_reads_old_text",
    "C60_detached_reads_same",
    "C60_callback_sees_change_partial",
    "C60_callback_sees_change_refuted",
    "C60_since_installed_partial"
   ],
   "note": "False of the code in general: a callback told of a [replace] reads the old text (C60_callback_sees_change_refuted). Proved for every ordinary program: a callback whose handle is on the buffer's storage reads the new text for every call that does not replace the whole text; told of a replace or reload it reads what its handle had before the call; once off the buffer's storage it reads the same text for ever."
  },
  {
   "property": "C61",
   "status": "partial",
   "theorems": [
    "C61_only_buffer_calls_partial",
    "C61_only_buffer_calls_refuted",
    "C61_storage_calls_partial",
    "C61_storage_is_the_text_partial"
   ],
   "note": "Proved for cloning, moving and reading; refuted for writes through the public cursor.data. What such a write does is said exactly for every program: it is the gap buffer call on the storage the clone refers to and nothing else."
  },
  {
   "property": "C62",
   "status": "proved",
   "theorems": [
    "C62_positions_form_lines"
   ],
   "note": "Any reachable buffer."
  },
  {
   "property": "C63",
   "status": "proved",
   "theorems": [
    "C63_reads_join",
    "C63_read_everything",
    "C63_insert_where_read"
   ],
   "note": "Any reachable buffer."
  },
  {
   "property": "C64",
   "status": "partial",
   "theorems": [
    "C64_one_buffer_per_file_partial",
    "C64_saves_stay_apart_partial",
    "C64_one_buffer_per_file_refuted"
   ],
   "note": "Proved for workspaces filled through open_buffer while nobody changes the links; refuted for a buffer with a hand-assigned path."
  },
  {
   "property": "C65",
   "status": "proved",
   "theorems": [
    "C65_calls_of_a_marked_text"
   ],
   "note": "Any text: the complete meaning of the calls, with no condition on clusters."
  },
  {
   "property": "C66",
   "status": "proved",
   "theorems": [
    "C66_machine_integers",
    "C66_no_panic",
    "C66_enough_memory",
    "C66_reached_buffers"
   ],
   "note": "For every word size; K is isize::MAX and usize::MAX is 2K+1. Allocations above K bytes end the session (MNoMemory)."
  },
  {
   "property": "C67",
   "status": "partial",
   "theorems": [
    "C67_any_position_partial",
    "C67_delete_range_exactly_when",
    "C67_refuted",
    "C67_down_exactly_when",
    "C67_right_exactly_when",
    "C67_delete_exactly_when",
    "C67_undo_exactly_when",
    "C67_sum_exactly_when",
    "C67_assigned_sum_is_the_sum",
    "C67_inclusive_range_exactly_when"
   ],
   "note": "False of the code: delete_range to line usize::MAX computes line + 1. Proved for every other position; the exact overflow conditions are theorems too."
  },
  {
   "property": "C68",
   "status": "proved",
   "theorems": [
    "C68_marked_editor",
    "C68_every_buffer"
   ],
   "note": "Refinement of the whole buffer, with no condition on texts or positions."
  },
  {
   "property": "C69",
   "status": "partial",
   "theorems": [
    "C69_field_sessions_partial",
    "C69_panics_exactly_when_partial",
    "C69_in_place_partial",
    "C69_assigning_refuted",
    "C69_stand_in_refuted"
   ],
   "note": "Exact for all sessions with assignments, including when they panic; refuted: a buffer assigned while none is selected makes the next add or open panic, and the stand-in left by taking the buffer has no syntax."
  },
  {
   "property": "C70",
   "status": "partial",
   "theorems": [
    "C70_no_panic_partial",
    "C70_ordinary_partial",
    "C70_what_is_loaded_partial",
    "C70_open_selects_partial",
    "C70_open_loads_partial",
    "C70_load_atomic_partial",
    "C70_open_atomic_partial",
    "C70_steady_sessions_partial",
    "C70_no_duplicates_partial",
    "C70_load_refuted",
    "C70_duplicates_refuted"
   ],
   "note": "No panic and reachability for any change; atomic while the path keeps its target and is not missing at first although open; refuted for a link changed between reading and resolving, and for a file missing for a moment."
  },
  {
   "property": "C71",
   "status": "proved",
   "theorems": [
    "C71_tokens_exactly"
   ],
   "note": "For every parser and scope stack; events in any order."
  },
  {
   "property": "C72",
   "status": "proved",
   "theorems": [
    "C72_few_reallocations",
    "C72_memory",
    "C72_reallocates_exactly_when"
   ],
   "note": "Gap buffer calls; the growth rule of Vec is a hypothesis (std_growth in GrowthSpec.v)."
  },
  {
   "property": "C73",
   "status": "proved",
   "theorems": [
    "C73_workspace_is_an_office",
    "C73_every_session"
   ],
   "note": "C39 composed with C68: no buffer, gap buffer, history or workspace of the model occurs in the specification (OfficeSpec.v)."
  },
  {
   "property": "C74",
   "status": "proved",
   "theorems": [
    "C74_machine_workspace",
    "C74_no_panic",
    "C74_enough_memory",
    "C74_reached_workspaces",
    "C74_add_exactly_when",
    "C74_open_exactly_when",
    "C74_nothing_else",
    "C74_lookups",
    "C74_lines",
    "C74_tokens"
   ],
   "note": "C74_add_exactly_when says when ids run out; C66 and C67 are the corresponding properties of single buffers."
  },
  {
   "property": "C75",
   "status": "proved",
   "theorems": [
    "C75_stream_exactly",
    "C75_no_panic",
    "C75_until_the_first_error"
   ],
   "note": "Complete functional specification of the iterator, errors and resumption included; C34-C38, C50 and C71 say what it means for the text."
  },
  {
   "property": "C76",
   "status": "proved",
   "theorems": [
    "C76_no_panic",
    "C76_kept_borrows",
    "C76_panics_exactly",
    "C76_storages"
   ],
   "note": "C57 is the case of one buffer with a callback that reads its own storage."
  },
  {
   "property": "C77",
   "status": "proved",
   "theorems": [
    "C77_own_storage",
    "C77_isolation"
   ],
   "note": ""
  },
  {
   "property": "C78",
   "status": "proved",
   "theorems": [
    "C78_values",
    "C78_reachable"
   ],
   "note": "C58 is the case of one buffer. With it, what C01-C33 prove of one buffer holds of each of many."
  },
  {
   "property": "C79",
   "status": "proved",
   "theorems": [
    "C79_rest",
    "C79_seat",
    "C79_own_cursor",
    "C79_callbacks"
   ],
   "note": "Undo with a writing callback does not bring the text back: the range that was inserted is removed from the text as the callback left it (C79_example). The history, cursor, path and answer are nevertheless those of the call alone (C79_rest), and the callback and the storage of the cursor stay (C79_seat)."
  },
  {
   "property": "C80",
   "status": "proved",
   "theorems": [
    "C80_gap_buffers",
    "C80_move",
    "C80_handle",
    "C80_storage_kept",
    "C80_cursor_kept",
    "C80_copies",
    "C80_made"
   ],
   "note": "C59 is the case of one buffer and clones of its cursor."
  },
  {
   "property": "C81",
   "status": "proved",
   "theorems": [
    "C81_any_moment",
    "C81_after_crash",
    "C81_steps_are_saves",
    "C81_saves_are_steps",
    "C81_finishes"
   ],
   "note": "Saving.v splits save into File::create and the writes of write_all. A process crash is modelled, not a power failure: what has been written stays. The file the save has open is not changed by others meanwhile (C82 is about that)."
  },
  {
   "property": "C82",
   "status": "partial",
   "theorems": [
    "C82_two_saves_partial",
    "C82_length_partial",
    "C82_together_partial",
    "C82_one_after_the_other_partial",
    "C82_two_saves_refuted",
    "C82_zeros_refuted"
   ],
   "note": "False: the file can hold a mixture, even zeros that neither text has (two _refuted theorems). Proved: the file holds one of the texts or is as long as the longer one; each byte is one of the two texts' or a zero past the end of the shorter, and no zeros when both had the file open before either wrote; equal texts are saved correctly; a save that starts after the other is over wins."
  },
  {
   "property": "C83",
   "status": "proved",
   "theorems": [
    "C83_inserts",
    "C83_cut_and_paste",
    "C83_deletes",
    "C83_inserts_commute",
    "C83_deletes_commute",
    "C83_mixed_commute",
    "C83_insert_elsewhere",
    "C83_delete_elsewhere"
   ],
   "note": "Stated with calls only, apart from where positions move (LawSpec.v). For texts whose clusters merge the laws fail; see C07 and C21."
  },
  {
   "property": "C84",
   "status": "proved",
   "theorems": [
    "C84_fails_exactly",
    "C84_changes_nothing",
    "C84_goes_on"
   ],
   "note": "Errors of current_buffer_tokens are in C46 and C38. What a failing save leaves in its file is in C27 and C81. Which io::Error an IoError carries is not modelled."
  },
  {
   "property": "C85",
   "status": "partial",
   "theorems": [
    "C85_after_power_failure_partial",
    "C85_on_the_device_partial",
    "C85_survives_refuted",
    "C85_both_lost_refuted"
   ],
   "note": "False: save never syncs the file, so after Ok a power failure can leave the old text, or an empty file with both texts lost (two _refuted theorems). Proved: at every moment the device holds, for each file, what it held or what programs saw before the save, or, for the file being saved, a beginning of the text; and all of the text once the file was taken to the device after the save returned."
  },
  {
   "property": "C86",
   "status": "partial",
   "theorems": [
    "C86_hard_sessions",
    "C86_hard_save",
    "C86_twice_only_by_hard_links_partial",
    "C86_one_buffer_per_file_partial",
    "C86_one_buffer_per_file_refuted"
   ],
   "note": "At most one buffer is false with hard links: two names of one file are opened as two buffers, and the second save overwrites the first without an error. Proved: two buffers lead to one file only by hard links; what a save changes; every session with hard links is a session of the ordinary model."
  },
  {
   "property": "C87",
   "status": "proved",
   "theorems": [
    "C87_nothing_before_changes"
   ],
   "note": "C30 is the statement for lines, and for every text. For clusters that merge it is false to the column (C87_simple_needed). C16_nothing_announced_before_partial applies it to the cursor."
  },
  {
   "property": "C88",
   "status": "proved",
   "theorems": [
    "C88_highlighting_kept"
   ],
   "note": "Stated for the calls of next, so it covers iteration that goes on after an error. The bound is sharp: in the example the announced line itself is highlighted differently."
  },
  {
   "property": "C89",
   "status": "partial",
   "theorems": [
    "C89_steps_are_loads",
    "C89_finishes",
    "C89_growing_partial",
    "C89_each_byte",
    "C89_with_save_partial",
    "C89_reload_with_save_partial",
    "C89_any_mixture",
    "C89_load_first",
    "C89_save_first",
    "C89_one_moment_refuted"
   ],
   "note": "False in full (refuted): HELLO saved over hello world during a load gives an unmodified buffer with helLO. Proved: without changes to the file, or with additions to its end only, the text is that of one moment; in general each byte is one the opened file held at that place; during a save, the possible texts are exactly the mixtures of a beginning of the old bytes and what follows that place in a beginning of the new ones."
  },
  {
   "property": "C90",
   "status": "partial",
   "theorems": [
    "C90_went",
    "C90_session_went",
    "C90_when",
    "C90_only_edits",
    "C90_no_panic",
    "C90_announced",
    "C90_edits_partial",
    "C90_undo_partial",
    "C90_redo_partial",
    "C90_history",
    "C90_single_undo",
    "C90_single_redo",
    "C90_group_undo",
    "C90_group_redo",
    "C90_reload",
    "C90_modified_refuted",
    "C90_undo_refuted",
    "C90_group_refuted"
   ],
   "note": "False in full (refuted): after a panic during insert the loaded buffer is unmodified although the text differs from the file; undo then leaves a text the buffer never had; a group is half undone and redo repeats the rest. Proved: no later call panics and the text stays valid; exactly when a call is ended; the text and cursor are those of the complete edit, the history those of before; undo and redo have handled a last or first part of the group's edits and are complete for single edits; the text they leave is one the buffer had while the group was made; the lines above the announced ones stay; a successful reload repairs text and modified."
  },
  {
   "property": "C91",
   "status": "proved",
   "theorems": [
    "C91_one_version",
    "C91_renames",
    "C91_finishes",
    "C91_in_place"
   ],
   "note": "For the step-by-step model of fs::read_to_string on disks where an open file and its name are separate (Renaming.v). In place of renaming, C89 says what writing in place does; where names stay with their files the two models give the same loads."
  },
  {
   "property": "C92",
   "status": "partial",
   "theorems": [
    "C92_succeeded_partial",
    "C92_never_mixed",
    "C92_finishes",
    "C92_alone",
    "C92_lost_refuted"
   ],
   "note": "False in full (refuted): the file is replaced during the writing, save returns Ok, and the path never reads as the saved text. Proved: a successful save is in the file unless the file was replaced after it was opened, and then the path reads as what replaced it; at every moment the path reads as before, as a beginning of the saved text, or as what another program put there; without renamings it is the save in one step of C86."
  },
  {
   "property": "C93",
   "status": "proved",
   "theorems": [
    "C93_from_file",
    "C93_reload",
    "C93_open",
    "C93_open_total",
    "C93_open_ends",
    "C93_no_panic",
    "C93_each_call",
    "C93_reads_only",
    "C93_save",
    "C93_sessions",
    "C93_file_there",
    "C93_no_duplicates",
    "C93_files_apart"
   ],
   "note": "C70 is what happens where links and files may change arbitrarily during open_buffer. Renaming over a symbolic link (which replaces the link) is not among the renamings here: a renaming replaces the file that a path leads to."
  },
  {
   "property": "C94",
   "status": "partial",
   "theorems": [
    "C94_each_program",
    "C94_no_panic",
    "C94_save_stays",
    "C94_reload",
    "C94_open",
    "C94_nothing_lost_partial",
    "C94_lost_refuted"
   ],
   "note": "False in its last part (refuted): the second save succeeds, the first text is gone, and the first program's buffer still counts as unmodified. Proved: all the rest, and that a save overwrites what this program has reloaded if nobody wrote to the file since. Here calls do not overlap; C82, C89 and C92 are about calls that do."
  },
  {
   "property": "C95",
   "status": "proved",
   "theorems": [
    "C95_same_calls",
    "C95_sessions",
    "C95_new",
    "C95_insert",
    "C95_delete",
    "C95_nothing_done",
    "C95_any_call",
    "C95_typing"
   ],
   "note": "Proved as exact numbers, and as bounds for any call on any buffer. Counted are the rounds of the two loops of move_gap; not counted are what Vec::reserve copies (C72 bounds how often), the inserted bytes, and what finding a position reads (it decodes the text up to it on every call, so an edit is not cheap in that sense). The exact numbers are for buffers no cluster of which straddles the gap (those that read as their text)."
  },
  {
   "property": "C96",
   "status": "partial",
   "theorems": [
    "C96_new",
    "C96_set_kept",
    "C96_definition",
    "C96_one_definition",
    "C96_user_first",
    "C96_then_defaults",
    "C96_then_plain",
    "C96_sessions",
    "C96_no_panic_partial",
    "C96_panics_exactly",
    "C96_assign_refuted"
   ],
   "note": "All but the last sentence is proved. The last one is false and refuted: syntect's find_syntax_plain_text panics if the set has no plain text definition, and syntax_set is a public field, so a set without one can be assigned. Proved instead: no session panics if plain text is among the defaults and in each assigned set, and exactly when a call panics otherwise. syntect's lookups (from the end of the list), and that loading keeps the order and adds at the end, are modelled from its documentation and source; reading the definitions from the folder is not modelled."
  },
  {
   "property": "C97",
   "status": "partial",
   "theorems": [
    "C97_each_byte_partial",
    "C97_in_time_partial",
    "C97_whole",
    "C97_any_mixture",
    "C97_reads_zeros",
    "C97_old_or_new_refuted",
    "C97_opens_refuted"
   ],
   "note": "False and refuted: the file can hold neither the old nor the new text, or not be UTF-8 any more. C97_any_mixture shows how wrong it is: for every text and every choice of places, the new bytes can be left at these places with the old ones or zeros at all others, after the save returned Ok. Proved instead: each byte is zero, an old one at its place, or the new one at its place; the file holds the text once its length and then pieces that cover it are taken to the device. Directories and links are taken as unchanged; that the length and the bytes are separate is the model's choice (as in file systems with delayed allocation)."
  },
  {
   "property": "C98",
   "status": "proved",
   "theorems": [
    "C98_each_call",
    "C98_sessions",
    "C98_at_most",
    "C98_no_limit"
   ],
   "note": "Bytes of the strings that operations own, and a constant for each operation. Not counted: spare capacity of the strings and stacks, and the clone that exists while undo or redo runs."
  },
  {
   "property": "C99",
   "status": "proved",
   "theorems": [
    "C99_order",
    "C99_storages",
    "C99_arranging_never_panics",
    "C99_never_panics",
    "C99_own_storage",
    "C99_isolation",
    "C99_values",
    "C99_reachable"
   ],
   "note": "The field current_buffer is neither taken nor assigned in these programs (C69 has that, with buffers as values). The heap of the model never shrinks; which storages anything still holds is C100."
  },
  {
   "property": "C100",
   "status": "proved",
   "theorems": [
    "C100_no_new_holders",
    "C100_untouched",
    "C100_gone_for_good",
    "C100_closing",
    "C100_only_buffers",
    "C100_how_many",
    "C100_freed",
    "C100_slot",
    "C100_out_of_reach"
   ],
   "note": "Reference counts are not modelled as numbers: a storage is freed when nothing the program can reach has a handle on it, which is what Rc does: storages contain no handles, so there are no cycles, and the code leaks none (std::mem::forget by the caller is outside the model). A callback that captures a handle on the storage of its own buffer counts as part of that buffer. The heap of the model never shrinks."
  }
 ]
}