# A Rocq model of jmacdonald/scribe

The model covers every function of the library. This file says how the code is modelled, how each
property is proved, what is trusted, and what the proofs found.

## Layout (rocq/theories)

| file | content |
|---|---|
| `Base.v` | panic monad `res`, list helpers |
| `Utf8.v`, `Utf8Proofs.v`, `LossyProofs.v` | chars, bytes, UTF-8 encoding, strict and lossy decoding |
| `Grapheme.v`, `ClusterSpec.v`, `GraphemeProofs.v`, `UaxProofs.v` | extended grapheme clusters for any break rule; the UAX #29 rules for any class table |
| `UnicodeTable.v` | generated table of break classes (Unicode 15.0), for witnesses only |
| `Position.v` | **model** of position.rs, distance.rs, range.rs, line_range.rs |
| `GapBuffer.v` | **model** of gap_buffer.rs, byte by byte |
| `Cursor.v` | **model** of cursor.rs |
| `PathModel.v` | **model** of the parts of `std::path` used |
| `Buffer.v` | **model** of buffer/mod.rs and buffer/operation/*.rs, with files |
| `LineIterator.v`, `Token.v` | **model** of util/line_iterator.rs and buffer/token/*.rs |
| `FileProofs.v` | buffers and workspaces on disks with links |
| `Workspace.v` | **model** of workspace.rs |
| `Racing.v` | **model** of open_buffer and from_file again, with the disk changing during the call |
| `Saving.v` | **model** of save again, one step per system call, with crashes, other programs and a second save in between |
| `Loading.v` | **model** of reading the file in `from_file` and `reload` again, one step per system call, with other programs and a save in between |
| `Renaming.v` | **model** of reading and writing the file again, one step per system call, while other programs replace files by renaming |
| `Opening.v` | **model** of `open_buffer`, `reload` and `save` in a workspace, step by step, while other programs replace files by renaming |
| `Programs.v` | **model** of several programs, each with a workspace, that use one disk in turn |
| `Throwing.v` | **model** of buffer/mod.rs and operation/*.rs again, with a callback that panics and a program that catches it |
| `Power.v` | **model** of what reaches the device when, beside `Saving.v` |
| `HardLinks.v` | **model** of save and sessions again, on disks with hard links |
| `Shared.v` | **model** of buffer/mod.rs, cursor.rs and operation/*.rs again, with `Rc<RefCell<GapBuffer>>` explicit |
| `World.v` | **model** of programs with many buffers on one heap, arbitrary change callbacks and kept borrows, over `Shared.v` |
| `Desk.v` | **model** of programs with a workspace over those storages: workspace.rs again, with buffers on one heap |
| `Machine.v` | **model** of gap_buffer.rs, cursor.rs, position.rs, line_range.rs, buffer/mod.rs and operation/*.rs again, on machine integers |
| `MachineWork.v` | **model** of workspace.rs, line_iterator.rs, token_iterator.rs and the lookups of buffer/mod.rs again, on machine integers |
| `Spec.v`, `RedoSpec.v`, `MarkSpec.v`, `MarkEditor.v`, `MachineSpec.v`, `LossySpec.v`, `CursorSpec.v`, `Timeline.v`, `Editor.v`, `SearchSpec.v`, `TokenSpec.v`, `TokenCuts.v`, `TokenStream.v`, `GrowthSpec.v`, `AttachSpec.v`, `OfficeSpec.v`, `MachineWorkSpec.v`, `WorldSpec.v`, `StoreSpec.v`, `SavingSpec.v`, `LawSpec.v`, `BookSpec.v`, `FailSpec.v`, `HardLinks.v`, `CountSpec.v`, `HighlightSpec.v`, `LoadingSpec.v`, `ThrowSpec.v`, `RenamingSpec.v`, `OpeningSpec.v`, `ProgramsSpec.v`, `CopiesSpec.v`, `SyntaxesSpec.v`, `CapacitySpec.v`, `TornSpec.v`, `UndoMemorySpec.v`, `DeskSpec.v`, `HoldersSpec.v`, `WorkspaceSpec.v`, `Bench.v`, `SharedSpec.v` | **specifications**, independent of the code |
| `Calls.v`, `CursorCalls.v`, `BufferCalls.v` | call alphabets, sessions, reachability, "clean" and "coherent" |
| `Disks.v`, `Witness.v`, `TokenWitness.v`, `WorkspaceWitness.v`, `SharedWitness.v`, `WorldWitness.v`, `HardWitness.v` | concrete inputs for examples and refutations |
| `*Proofs.v`, `*Props.v`, `*Facts.v`, `BufferSimple.v` | proofs |
| `Properties_*.v` | the property theorems, each closed by `exact`, with `Print Assumptions` and an `Example` |

## Modelling decisions

* **Panics** are explicit: `res A := Ok a | Panic`. Index out of bounds, inverted or unaligned
  slices, unsigned underflow (debug-build semantics), `unwrap` on `None` and a conflicting `RefCell`
  borrow give `Panic`.
* **usize** is `nat`. `Machine.v` has the buffer code again with every sum checked against
  `usize::MAX` and every allocation against `isize::MAX`; C66 says that the two agree. `MachineWork.v` does the same for workspaces, lines and tokens (C74).
* **Bytes and chars** are `N`. A Rust `str` is a list of scalar values (`text`). A `Vec<u8>` is a
  list of bytes plus a list of spare bytes, so that `set_len` exposes arbitrary bytes.
* **The allocator** is an argument that gives the spare bytes of each reallocation. Theorems hold for
  every allocator that returns at least what was asked for (`alloc_ok`).
* **Grapheme segmentation** (crate unicode-segmentation) is a parameter `brk : list char -> char ->
  bool`: is there a boundary before this char, given the cluster so far. UAX #29 has this shape.
  "Any text" theorems hold for every `brk`; no-panic theorems for UAX #29 over every class table
  that gives the newline its class (`order_safe`).
* **Clean, coherent.** Positions are line and cluster numbers, found by segmenting the text before and
  after the gap separately. A cluster that straddles the gap is counted as two, so an edit that
  puts a mark after a letter makes positions depend on the history (C07 refuted). `clean_session`
  says that no call joins two pieces into one cluster. `coherent` says that the buffer reads as its
  text. New buffers and clean sessions are coherent; positional theorems assume `coherent`, not
  `clean_session`, wherever one call is concerned.
* **CR LF.** The cluster "\r\n" is not the cluster "\n", so the code does not see a line end there.
  Positional theorems assume `plain_newlines`; C32 has the witness.
* **change_callback** is a log of the positions it was called with (Buffer.v), or a closure that holds
  a reference to the storage, borrows it mutably and records what it sees (Shared.v),
  or any tree of calls on storages it has handles on (World.v), or it panics and the program catches
  the panic (Throwing.v). Not modelled: a closure that keeps a
  borrow from one call to the next.
* **Files**: paths lead to targets (links, relative names), targets hold bytes, something unreadable, or
  nothing; several paths can share a target. For each save there is an outcome (create fails / write
  stops after k bytes / success). Between calls anything
  can happen to the disk. During a call it does not change, except in `Saving.v`, in `Loading.v`, in `Renaming.v`, in `Opening.v` and in `Racing.v`, which gives opening a
  file the disk of each moment.
* **syntect** is a parameter: `parse_line` and `apply` are arbitrary functions with state. Hypotheses
  on events are written in each theorem.
* **Statements that are false of the code** stay in the list with status partial: `_partial` proves
  what is true, `_refuted` gives the counterexample by computation.

## Properties: what is modelled, how it is proved, what came out

* **C01 A gap buffer behaves exactly like a plain string** (proved). Refinement in three layers, by induction over the calls: bytes and gap -> two half texts (`rep`, GapBufferProofs) -> one plain text (`holds`, HalvesProofs), against the string specification `spec_insert`, `spec_delete`, `spec_read`, `spec_in_bounds` of Spec.v. The condition that calls do not merge clusters is `clean_session`; it is shown to be met by all UAX #29 text built from single-char clusters, marked letters and flags, and dropped for single calls on buffers that read as their text (`coherent`). Theorems: `C01_gap_buffer_is_a_string`, `C01_unicode_sessions_are_clean`, `C01_ascii_text_is_simple`, `C01_clean_buffers_are_coherent`, `C01_new_buffers_are_coherent`, `C01_coherent_calls`.
* **C02 Text is never corrupted, whatever the Unicode content** (proved). First layer only (bytes to halves), so it holds for every text and every break rule: an insert adds exactly its data at some point, a delete removes one contiguous piece, a read returns a contiguous piece, the text always stays valid UTF-8. Theorems: `C02_insert_integrity`, `C02_delete_integrity`, `C02_read_integrity`, `C02_new`, `C02_closed`.
* **C03 GapBuffer calls never panic on any Unicode text** (proved). Halves layer plus the lemma that a later position is never found earlier (`order_safe`), proved for UAX #29 over any class table by a case analysis of the rules on the boundary between the halves. Theorems: `C03_no_panic`.
* **C04 Uninitialised spare memory is never observable** (proved). Two runs with different allocators are related by a bisimulation that ignores the bytes of the gap. Theorems: `C04_fresh_memory_invisible`, `C04_capacity_invisible`.
* **C05 Out-of-bounds edits leave the content alone** (proved). From the halves layer (delete, read: any text) and from the plain text layer (insert). Theorems: `C05_insert_out_of_bounds`, `C05_insert_out_of_bounds_any_text`, `C05_delete_out_of_bounds`, `C05_read_out_of_bounds`.
* **C06 Delete clamps a range end that does not exist** (proved). Plain text layer: the deleted end is `spec_end`. Theorems: `C06_delete_clamps`.
* **C07 A position means the same place however the text was produced** (partial). Corollary of C01, and of the simulation in C65 for every text; for whole buffers after any calls with input made of simple clusters (RedoProofs.v: the gap is always between clusters); the full statement is refuted with CR and LF on the two sides of the gap; exact (PlaceProofs.v): a buffer reads as a new one of its text iff the clusters of the text are those of the two sides, by reading up to the gap. Theorems: `C07_answers_depend_on_text_partial`, `C07_answers_depend_on_text_refuted`, `C07_answers_of_a_marked_text`, `C07_text_and_place_partial`, `C07_as_new_exactly_when_partial`, `C07_place_after_insert`, `C07_place_after_delete`, `C07_simple_histories_partial`.
* **C08 Positions are totally ordered and ranges normalise** (proved). Case analysis on the comparisons, against `Pos` ordered lexicographically. Theorems: `C08_origin`, `C08_position_order`, `C08_order_irreflexive`, `C08_order_transitive`, `C08_range_new`, `C08_range_includes`.
* **C09 Line ranges agree with character ranges** (proved). Arithmetic, and C06 for the deletion of whole lines. Theorems: `C09_line_range_new`, `C09_line_range_is_char_range`, `C09_inclusive_range`, `C09_delete_lines`, `C09_delete_lines_inclusive`.
* **C10 Position plus Distance is the end of inserted text** (partial). Induction on the text, and an exact condition for all Unicode data; the full statement is refuted because `Distance::of_str` counts bytes. Theorems: `C10_distance_of_inserted_text_partial`, `C10_distance_of_text`, `C10_distances_add`, `C10_add_assign`, `C10_end_of_inserted_text`, `C10_distance_exactly_when`, `C10_distance_of_inserted_text_refuted`.
* **C11 move_to is an exact bounds check** (proved). move_to against `spec_in_bounds`. Theorems: `C11_move_to_exact`, `C11_move_to_is_in_bounds`.
* **C12 Cursor movement never leaves the buffer** (proved). Invariant of every movement for any text; exact movement for text without CR LF pairs against the `move_spec` of CursorSpec.v. Theorems: `C12_movement_stays_in_bounds`, `C12_movement_from_in_bounds`, `C12_movement_refines_spec`, `C12_uax29_no_crlf`.
* **C13 Vertical movement keeps the desired column** (proved). Induction over up/down sequences; the invariant is that the column is the minimum of the remembered column and the line length. Theorems: `C13_vertical_movement`, `C13_settled`.
* **C14 Horizontal and line-edge movement** (proved). Each movement computed from the halves; left and start-of-line need no condition on the text. Theorems: `C14_left`, `C14_right`, `C14_start_of_line`, `C14_end_of_line`, `C14_left_any_text`, `C14_start_of_line_any_text`.
* **C15 First/last line movement** (proved). Loop invariant of the last-line scan. Theorems: `C15_first_line`, `C15_last_line`.
* **C16 The buffer cursor always points into the buffer** (partial). Invariant for the calls that keep it; refuted for delete_range, undo. For every text `move_to_first_line` recovers: the halves of the first line have at least as many clusters as the line. On texts of simple clusters the cursor stays if no place before it is announced (C87). Theorems: `C16_cursor_in_text_partial`, `C16_cursor_in_text_refuted`, `C16_first_line_recovers_partial`, `C16_nothing_announced_before_partial`.
* **C17 Undo exactly reverses the last edit and redo re-applies it** (proved). Each operation's reverse is computed on the plain text; induction over the number of edits undone. Theorems: `C17_undo_redo`, `C17_undo_redo_many`.
* **C18 Undo/redo is a linear timeline** (proved). Simulation: a buffer and its history are related to a timeline (Timeline.v) whose steps mention only texts; induction over call sequences. Theorems: `C18_text_is_timeline`, `C18_legal_calls_return`, `C18_unicode_calls_are_legal`, `C18_unicode_texts_stay_simple`.
* **C19 Operation groups are atomic** (proved). Consequence of the simulation in C18, plus the empty group for any text. Theorems: `C19_group_is_atomic`, `C19_empty_group`.
* **C20 A new edit discards the redo future** (proved). Any text: the history after an edit has no future, redo returns the buffer itself. Theorems: `C20_edit_discards_future`.
* **C21 Undo restores the text for every delete_range and every Unicode insert** (partial). Refuted by witnesses (missing range end; combining mark inserted after a letter); the loss is proved for every missing end. From C68: restored for every text segmented in one piece when both ends exist, or when the insert merges with neither side. Theorems: `C21_missing_end_is_lost_partial`, `C21_undo_restores_refuted`, `C21_delete_range_partial`, `C21_insert_partial`, `C21_fresh_is_undivided`, `C21_replaced_is_undivided`.
* **C22 Redo inside an open group is safe** (partial). Refuted by a witness; proved for groups without edits, and for groups whose edits are on other lines than the step that is redone: over the editor of C68, edits within a line act on that line only, so the two steps commute (RedoProofs.v). Theorems: `C22_redo_in_empty_group_partial`, `C22_redo_in_group_refuted`, `C22_redo_on_other_lines_partial`.
* **C23 An unmodified buffer equals what was last loaded or saved** (proved). The timeline carries a flag `synced`; the mark of the history is related to it. Theorems: `C23_unmodified_is_synced`, `C23_modified_is_exact`, `C23_undo_to_save_point`, `C23_edit_modifies`.
* **C24 modified() is trustworthy while a group is open** (partial). Refuted by witnesses; what modified() answers in a group is proved; for every text the answer follows from numbers of steps, by simulation with the marked editor (C68). Theorems: `C24_modified_in_group_partial`, `C24_modified_refuted`, `C24_modified_every_text_partial`.
* **C25 Buffers that never had a path are always modified** (proved). Invariant over all calls: the history of a buffer that never had a path has no mark. Theorems: `C25_pathless_is_modified`.
* **C26 Save then load is the identity** (proved). Direct, over the file system model with links, for any text; every outcome of save and load is characterised; induction over calls for the way back to the same file. Theorems: `C26_save`, `C26_save_then_load`, `C26_save_outcome`, `C26_load`, `C26_load_outcome`, `C26_readable`, `C26_saved_where_loaded`.
* **C27 A failing save does not lose data** (partial). The buffer half direct, the disk half refuted (File::create truncates). Theorems: `C27_failing_save_keeps_buffer_partial`, `C27_failing_save_disk_partial`, `C27_failing_save_refuted`.
* **C28 Reload takes the on-disk text** (proved). Direct, all outcomes of reload. Theorems: `C28_reload`, `C28_reload_outcome`.
* **C29 Replace keeps the cursor as well as it can** (proved). Direct, for any text and cursor, against `clamp`-style specification. Theorems: `C29_replace_cursor`, `C29_replace_cursor_plain`, `C29_replace_text`, `C29_replace_same`.
* **C30 Every change is announced, at or before the first changed line** (proved). Invariant of every operation by induction over operations (groups are trees), for any text: lines before the announced line are unchanged. Theorems: `C30_announced_lines`, `C30_change_is_announced`, `C30_announced_by_calls`.
* **C31 Search finds exactly the occurrences of a single-line needle** (partial). Soundness and completeness by induction over lines and over the text of a line, for every text and needle (EveryTextProofs.v); false for multi-line needles and non-ASCII columns (witnesses). Theorems: `C31_search_every_text_partial`, `C31_newline_never_found_partial`, `C31_columns_partial`, `C31_search_ascii_partial`, `C31_search_bytes_partial`, `C31_search_reads_back_partial`, `C31_search_refuted`.
* **C32 line_count agrees with addressable lines** (partial). Induction on the text; for every text the newline clusters of the two halves are counted (MarkProofs.v); CRLF refutes the full statement. Theorems: `C32_addressable_lines`, `C32_addressable_lines_when_new`, `C32_table_has_one_carriage_return`, `C32_line_count`, `C32_line_count_addresses_partial`, `C32_line_count_refuted`.
* **C33 File name and extension are consistent** (proved). Direct, on paths as component lists with byte names, against a split at the last dot; an extension that is not UTF-8 is pinned by the maximal-subpart rule in `LossySpec.v`, which determines the result. Theorems: `C33_file_name`, `C33_file_extension`, `C33_file_extension_text`, `C33_file_extension_lossy`, `C33_no_file_extension`.
* **C34 LineIterator partitions the text** (proved). Invariant of the iterator: what is left is the rest of the text. Theorems: `C34_line_iterator`.
* **C35 Tokens reproduce the buffer** (proved). Invariant of the token iterator for any parser whose events are at char boundaries. Theorems: `C35_tokens_reproduce`.
* **C36 Token positions point at the token** (proved). The same invariant with positions, under the condition that tokens start on cluster boundaries. Theorems: `C36_token_positions`, `C36_token_positions_single_chars`, `C36_split_cluster_shifts`.
* **C37 Token scopes are the parser's scopes** (proved). The scope stack of each lexeme is the fold of all earlier events of the parser. Theorems: `C37_token_scopes`.
* **C38 Tokenizer errors are reported, not swallowed** (proved). Characterises how an iteration ends, for every failure point of the parser and the scope stack. Theorems: `C38_tokens_end`, `C38_token_errors`, `C38_iteration_can_resume`.
* **C39 A workspace is a list of buffers with a selection** (proved). Simulation between the check-out/check-in representation (current buffer out of the vector) and a plain list with an index (WorkspaceSpec.v). Theorems: `C39_workspace_is_a_list`, `C39_no_panic`.
* **C40 Buffer ids are unique for the life of a workspace** (proved). Invariant: all ids are below the next id. Theorems: `C40_ids_distinct`, `C40_ids_increase`, `C40_ids_kept`, `C40_new_buffer_is_next`.
* **C41 A selection exists exactly when there are buffers** (proved). Corollary of C39. Theorems: `C41_selection`.
* **C42 Opening the same file twice does not duplicate it** (proved). Corollary of C39 with the canonicalisation oracle. Theorems: `C42_reopening_selects`, `C42_opening_adds`, `C42_no_duplicates`, `C42_failing_open`, `C42_open_fails_when`.
* **C43 next/previous cycle through all buffers** (proved). Modular arithmetic on the specification side of C39. Theorems: `C43_next_then_previous`, `C43_previous_then_next`, `C43_full_circle`, `C43_each_met_once`.
* **C44 Closing removes exactly the current buffer** (proved). Corollary of C39. Theorems: `C44_close`.
* **C45 Buffer paths are reported relative to the workspace** (proved). Direct; prefix stripping on component lists. Theorems: `C45_paths`, `C45_join`.
* **C46 Every workspace buffer can be tokenized** (proved). Invariant: every buffer of a workspace has a syntax definition. Theorems: `C46_tokens`, `C46_tokens_outcome`.
* **C47 Capacity is unobservable for every text** (partial). From C65 when everything fits. Refuted by a witness: the capacity decides whether insert moves the gap, and so whether clusters merge. Theorems: `C47_insert_exactly_when_partial`, `C47_sessions_alike_partial`, `C47_capacity_invisible_refuted`, `C47_enough_room_partial`.
* **C48 Out-of-bounds inserts leave every text alone** (partial). From C65 when the insert fits. Refuted by a witness: growing the buffer moves the gap before the bounds check. Theorems: `C48_exactly_when`, `C48_growing_insert`, `C48_insert_out_of_bounds_refuted`, `C48_fitting_insert_partial`.
* **C49 Buffer calls never panic and keep the text valid** (proved). Invariant of all calls for any text: valid halves and an `order_safe` break rule. Theorems: `C49_no_panic`, `C49_text_is_valid`.
* **C50 Lexemes are not empty** (partial). Refuted by a witness; only the last lexeme of a line can be empty; from C71, exactly when one is. Theorems: `C50_exactly_when`, `C50_nonempty_lexemes_partial`, `C50_empty_lexeme_refuted`.
* **C51 Syntax definitions are chosen by extension, name, or plain text** (proved). Direct, the choice of syntax for every path. Theorems: `C51_added_syntax`, `C51_updated_syntax`.
* **C52 Only assignments change id, path, syntax definition and callback** (proved). Case analysis of all calls. Theorems: `C52_only_assigned`.
* **C53 A buffer taken out of the workspace is gone** (partial). Direct; refuted for the placeholder that stays. Theorems: `C53_taken_buffer_partial`, `C53_taken_buffer_refuted`.
* **C54 Edits, groups, saves and assignments leave the cursor where it is** (proved). Case analysis of all calls for any text. Theorems: `C54_cursor_stays`.
* **C55 The change callback is told exactly where each edit took place** (proved). Direct computation of the announced positions. Theorems: `C55_announced_exactly`.
* **C56 A buffer behaves as an abstract editor** (proved). Refinement of the whole buffer to the editor of Editor.v (text, cursor, desired column, edits as data, announcements, groups, sync mark): outputs and announcements of every call agree. Theorems: `C56_buffer_is_an_editor`, `C56_simple_texts`.
* **C57 Shared storage never causes a borrow panic** (proved). Heap of `RefCell`s with borrow counters (Shared.v); invariant that no borrow is out between calls and every call succeeds, with a callback that borrows mutably. Theorems: `C57_no_borrow_conflict`.
* **C58 Sharing the text is unobservable to ordinary programs** (proved). Simulation between Shared.v (references) and Buffer.v (values) for programs without aliasing writes. Theorems: `C58_value_model`, `C58_reachable`, `C58_cursor_shares`.
* **C59 A clone of the buffer's cursor moves in the buffer's text** (partial). Clones on the buffer's storage proved to follow it, with the exact calls that leave them behind and what they then see (AttachSpec.v); refuted after replace. Theorems: `C59_attached_partial`, `C59_new_clone`, `C59_follows_exactly_until`, `C59_left_behind`, `C59_detached_forever`, `C59_clones_follow_partial`, `C59_clones_follow_refuted`.
* **C60 A change callback sees the changed text** (partial). Callbacks on the buffer's storage proved to see every change that is not a replacement, with exactly what the others read; refuted for replace. Theorems: `C60_attached_partial`, `C60_reads_old_text`, `C60_detached_reads_same`, `C60_callback_sees_change_partial`, `C60_callback_sees_change_refuted`, `C60_since_installed_partial`.
* **C61 Only calls on the buffer change the buffer** (partial). Proved for reads, clones and movements; refuted for writes through the public field. Theorems: `C61_only_buffer_calls_partial`, `C61_only_buffer_calls_refuted`, `C61_storage_calls_partial`, `C61_storage_is_the_text_partial`.
* **C62 The positions of any buffer form lines without holes** (proved). Any text: the positions accepted are those below the `widths` of the two halves joined. Theorems: `C62_positions_form_lines`.
* **C63 Reads of neighbouring ranges join to the whole text** (proved). Any text: reads are slices of the joined halves. Theorems: `C63_reads_join`, `C63_read_everything`, `C63_insert_where_read`.
* **C64 No two open buffers lead to the same file** (partial). Invariant of the list: every path is its own target and no path occurs twice; the files of a workspace are then apart. Refuted with a hand-assigned link. Theorems: `C64_one_buffer_per_file_partial`, `C64_saves_stay_apart_partial`, `C64_one_buffer_per_file_refuted`.
* **C65 Every gap buffer call means what a marked text says, for every text** (proved). Simulation of the halves and the gap length by `marked` (MarkSpec.v), induction over calls; needs `order_safe` for deletes. Theorems: `C65_calls_of_a_marked_text`.
* **C66 Machine integers do not overflow** (proved). Machine.v is the model again with checked sums; simulation by the unbounded model under an invariant (text fits in memory, cursor and history within isize::MAX), induction over calls and over operation trees. Theorems: `C66_machine_integers`, `C66_no_panic`, `C66_enough_memory`, `C66_reached_buffers`.
* **C67 Calls accept every position** (partial). From the same invariant: a position in bounds is below isize::MAX. Refuted by the range that ends on line usize::MAX. Theorems: `C67_any_position_partial`, `C67_delete_range_exactly_when`, `C67_refuted`, `C67_down_exactly_when`, `C67_right_exactly_when`, `C67_delete_exactly_when`, `C67_undo_exactly_when`, `C67_sum_exactly_when`, `C67_assigned_sum_is_the_sum`, `C67_inclusive_range_exactly_when`.
* **C68 Every call has a meaning for every text** (proved). Refinement of the whole buffer to the marked editor of MarkEditor.v, extending C65 to history, groups, cursor, announcements and files; simulation by induction over call sequences, without clean-text conditions. Theorems: `C68_marked_editor`, `C68_every_buffer`.
* **C69 The public current_buffer field** (partial). Refinement to Bench.v: a list of buffers, a selection, and what the field holds (the selected buffer, nothing, or a stray). Induction over sessions of calls and assignments; the calls that panic are exactly those that re-enter a stray. Theorems: `C69_field_sessions_partial`, `C69_panics_exactly_when_partial`, `C69_in_place_partial`, `C69_assigning_refuted`, `C69_stand_in_refuted`.
* **C70 Opening while the disk changes** (partial). The calls with the disk as an argument at each moment it is looked at (Racing.v). Each open equals an open at one moment followed by disk changes, so racing workspaces are reachable ones. Refuted by witnesses. Theorems: `C70_no_panic_partial`, `C70_ordinary_partial`, `C70_what_is_loaded_partial`, `C70_open_selects_partial`, `C70_open_loads_partial`, `C70_load_atomic_partial`, `C70_open_atomic_partial`, `C70_steady_sessions_partial`, `C70_no_duplicates_partial`, `C70_load_refuted`, `C70_duplicates_refuted`.
* **C71 Tokens are exactly the lines cut at the parser's events** (proved). A function cutting a list of bytes at a list of offsets (TokenCuts.v). Induction over the events of a line, then over the lines. Theorems: `C71_tokens_exactly`.
* **C72 Reallocations are few and memory is bounded** (proved). Capacity as a function of the calls (GrowthSpec.v); induction over the calls with the invariant that each reallocation at least doubles the capacity. Theorems: `C72_few_reallocations`, `C72_memory`, `C72_reallocates_exactly_when`.
* **C73 A workspace session is that of a list of text editors, for every text** (proved). OfficeSpec.v: `office`, a list of the marked editors of MarkEditor.v with a selection and one disk. Proved by composing the refinement of C39 (workspace to list of buffers) with the simulation of C68 (buffer to marked editor) for each element of the list. Theorems: `C73_workspace_is_an_office`, `C73_every_session`.
* **C74 Workspaces, lines, searches and tokens do not overflow machine integers until the ids are used up** (proved). MachineWork.v: the code of workspace.rs, line_iterator.rs, token_iterator.rs and the searches again, every sum checked against usize::MAX and every string against isize::MAX. Proved by an invariant (the bytes read are within the text, the offsets within its length, the index below the number of buffers, which is at most the number of ids) under which each checked sum agrees with the unbounded one. Theorems: `C74_machine_workspace`, `C74_no_panic`, `C74_enough_memory`, `C74_reached_workspaces`, `C74_add_exactly_when`, `C74_open_exactly_when`, `C74_nothing_else`, `C74_lookups`, `C74_lines`, `C74_tokens`.
* **C75 Everything a token iterator ever returns** (proved). TokenStream.v: `stream`, the list of items by recursion on lines and events, without iterator state. Proved by an invariant relating the state of the iterator to the items that remain; each `next` removes the first. Theorems: `C75_stream_exactly`, `C75_no_panic`, `C75_until_the_first_error`.
* **C76 No program panics unless it keeps a borrow** (proved). World.v: heap of storages with their leases, closures as interaction trees. Proved by an invariant (every lease is what the kept borrows say), carried through every function of Shared.v for arbitrary leases; panics are shown to need a conflicting lease. Theorems: `C76_no_panic`, `C76_kept_borrows`, `C76_panics_exactly`, `C76_storages`.
* **C77 Buffers do not share their text** (proved). World.v. NoDup of the buffers' storages is an invariant; each function of Shared.v changes only the buffer's own storage, storages it makes, and those its callback writes. Theorems: `C77_own_storage`, `C77_isolation`.
* **C78 Several buffers are several separate buffers** (proved). World.v against `vrun` on lists of Buffer.v values: a simulation, using C77 for the other buffers. Theorems: `C78_values`, `C78_reachable`.
* **C79 Whatever a callback does, each edit is followed by exactly one call of it** (proved). StoreSpec.v: events of a call and their effect on plain values. Proved by simulation, operation by operation, of Shared.v on the contents of the heap, for all leases. BookSpec.v: everything of a buffer but its text; proved by running the call on the buffer as it looks and comparing all fields but the text and what the callback noted. Theorems: `C79_rest`, `C79_seat`, `C79_own_cursor`, `C79_callbacks`.
* **C80 Cursors and handles work on the text of their storage at that moment** (proved). StoreProofs.v: reachability of every content as an invariant of the heap; frame lemmas for storages and cursors. Theorems: `C80_gap_buffers`, `C80_move`, `C80_handle`, `C80_storage_kept`, `C80_cursor_kept`, `C80_copies`, `C80_made`.
* **C81 A save stopped at any moment** (proved). model save as a machine with one transition per answer of the operating system (Saving.v); an invariant over all schedules; simulation in both directions with the one-step model of C26, C27, C64; decode of a cut encoding Theorems: `C81_any_moment`, `C81_after_crash`, `C81_steps_are_saves`, `C81_saves_are_steps`, `C81_finishes`.
* **C82 Two programs saving one file** (partial). two instances of the machine of C81 over one disk; invariants that follow the save that truncated the file last and how far both have written Theorems: `C82_two_saves_partial`, `C82_length_partial`, `C82_together_partial`, `C82_one_after_the_other_partial`, `C82_two_saves_refuted`, `C82_zeros_refuted`.
* **C83 Edits compose** (proved). through C01 each sequence of calls becomes an edit of a string; positions are ends of pieces of the text, and the moved positions are computed from the pieces Theorems: `C83_inserts`, `C83_cut_and_paste`, `C83_deletes`, `C83_inserts_commute`, `C83_deletes_commute`, `C83_mixed_commute`, `C83_insert_elsewhere`, `C83_delete_elsewhere`.
* **C84 Calls that fail** (proved). case analysis over the calls; which opens fail comes from the simulation of C39; the session part by composing runs Theorems: `C84_fails_exactly`, `C84_changes_nothing`, `C84_goes_on`.
* **C85 Saves and power failures** (partial). the machine of C81 beside a second disk, the device, to which files are copied at arbitrary moments; induction over the events Theorems: `C85_after_power_failure_partial`, `C85_on_the_device_partial`, `C85_survives_refuted`, `C85_both_lost_refuted`.
* **C86 Files with several names** (partial). a disk whose names refer to files; sessions simulated by ordinary ones in which others write to the remaining names after each save; then C64 Theorems: `C86_hard_sessions`, `C86_hard_save`, `C86_twice_only_by_hard_links_partial`, `C86_one_buffer_per_file_partial`, `C86_one_buffer_per_file_refuted`.
* **C87 Nothing before the announced places changes** (proved). each edit of the marked editor (C68), made or taken back, keeps the text before the position it announces; induction over the edits of a step and over the calls Theorems: `C87_nothing_before_changes`.
* **C88 Highlighting before the announced line stays valid** (proved). the lines before the announced ones are the same with the newlines that end them (C30, for any number of calls); by C75 the items of a line depend on that line and on what the lines before left of parser and scope Theorems: `C88_highlighting_kept`.
* **C89 Loading a file while it changes** (partial). the load is a machine driven by the answers of the operating system, put beside the machine of C81; invariants over all sequences of events: what has been read is a beginning of the old bytes followed by bytes of the new ones at their places; each mixture is reached by an explicit schedule Theorems: `C89_steps_are_loads`, `C89_finishes`, `C89_growing_partial`, `C89_each_byte`, `C89_with_save_partial`, `C89_reload_with_save_partial`, `C89_any_mixture`, `C89_load_first`, `C89_save_first`, `C89_one_moment_refuted`.
* **C90 A change callback that panics** (partial). the operations again with a countdown to the callback's panic; induction over operations shows that a call that goes through is the ordinary one and that an ended one has run a prefix (reversed a suffix) of the flattened edits; well-formedness is an invariant over all sequences of calls Theorems: `C90_went`, `C90_session_went`, `C90_when`, `C90_only_edits`, `C90_no_panic`, `C90_announced`, `C90_edits_partial`, `C90_undo_partial`, `C90_redo_partial`, `C90_history`, `C90_single_undo`, `C90_single_redo`, `C90_group_undo`, `C90_group_redo`, `C90_reload`, `C90_modified_refuted`, `C90_undo_refuted`, `C90_group_refuted`.
* **C91 Loading a file that others replace by renaming** (proved). loads one system call at a time on a disk of names and numbered files; the invariant is that what was read is a beginning of what the file held when it was opened; a simulation ties the model to that of C89 Theorems: `C91_one_version`, `C91_renames`, `C91_finishes`, `C91_in_place`.
* **C92 Saving a file that others replace by renaming** (partial). saves one system call at a time on a disk of names and numbered files; the invariant is that the open file holds a beginning of the data and that the path leads to it or to a later file of another program Theorems: `C92_succeeded_partial`, `C92_never_mixed`, `C92_finishes`, `C92_alone`, `C92_lost_refuted`.
* **C93 Opening and reloading while others replace files by renaming** (proved). the whole calls one system call at a time; every call is that of the one-step model at one moment, by the one-version theorem of C91; sessions are simulated by those of the one-step model, with a change of the disk before and after each call Theorems: `C93_from_file`, `C93_reload`, `C93_open`, `C93_open_total`, `C93_open_ends`, `C93_no_panic`, `C93_each_call`, `C93_reads_only`, `C93_save`, `C93_sessions`, `C93_file_there`, `C93_no_duplicates`, `C93_files_apart`.
* **C94 Several programs that use one disk in turn** (partial). a list of workspaces that share one disk; each program is simulated by a session with disk changes between its calls; contents of files are carried over the calls that do not write there Theorems: `C94_each_program`, `C94_no_panic`, `C94_save_stays`, `C94_reload`, `C94_open`, `C94_nothing_lost_partial`, `C94_lost_refuted`.
* **C95 How many bytes an edit moves** (proved). the functions that move bytes, written again with a counter of the rounds of their loops and proved to do the same; the counter equals the distance between two places in the text; induction over the keys with the bound on reallocations of C72 Theorems: `C95_same_calls`, `C95_sessions`, `C95_new`, `C95_insert`, `C95_delete`, `C95_nothing_done`, `C95_any_call`, `C95_typing`.
* **C96 Which syntax definition a buffer gets, and when there is none** (partial). the set as the list that syntect keeps, lookups that can panic, the calls that use them written again over it; a simulation with the workspace whose set is a pair of total lookups, which carries over all its theorems Theorems: `C96_new`, `C96_set_kept`, `C96_definition`, `C96_one_definition`, `C96_user_first`, `C96_then_defaults`, `C96_then_plain`, `C96_sessions`, `C96_no_panic_partial`, `C96_panics_exactly`, `C96_assign_refuted`.
* **C97 Power failures in the middle of a file** (partial). Power.v with flushes split into lengths and pieces of bytes; an invariant over all sequences of pieces Theorems: `C97_each_byte_partial`, `C97_in_time_partial`, `C97_whole`, `C97_any_mixture`, `C97_reads_zeros`, `C97_old_or_new_refuted`, `C97_opens_refuted`.
* **C98 What the undo history keeps in memory** (proved). a measure on the stacks and the open group, its exact change for each call by cases, sessions by induction; a session of any length for the last sentence Theorems: `C98_each_call`, `C98_sessions`, `C98_at_most`, `C98_no_limit`.
* **C99 A workspace keeps the storages of its buffers** (proved). a simulation from the workspace with its checked-out slot to a list of buffers over one heap; the calls on buffers are those of World.v on the open buffers and the program's own; sessions by induction Theorems: `C99_order`, `C99_storages`, `C99_arranging_never_panics`, `C99_never_panics`, `C99_own_storage`, `C99_isolation`, `C99_values`, `C99_reachable`.
* **C100 The text of a closed buffer is freed** (proved). where each buffer, cursor and borrow after a call comes from: an old one with the same or fewer handles, or one made by the call on a new storage; by cases over the calls, then induction over the continuation and over the session Theorems: `C100_no_new_holders`, `C100_untouched`, `C100_gone_for_good`, `C100_closing`, `C100_only_buffers`, `C100_how_many`, `C100_freed`, `C100_slot`, `C100_out_of_reach`.

## Trusted base

* The kernel of Coq 8.16.1, including `vm_compute`.
* `Print Assumptions` says "Closed under the global context" for every theorem in every
  `Properties_*.v`: no axioms, not even the standard library's.
* The model agrees with the source. It was written by reading; nothing was executed. Each definition
  cites file and lines.
* The contracts of what the code calls, as modelled:
  * std: `Vec` (reserve, set_len, indexing), `str` (lines, chars, char_indices, split, len, slicing),
    `String::from_utf8_lossy` and `from_utf8`, `Path` (file_name, extension, strip_prefix, equality
    by components), `fs::canonicalize`, `File::open/create/write`, `Rc`, `RefCell`, `Option`.
    The number of U+FFFD that lossy decoding gives for ill-formed bytes is std's documented rule
    (`decode_lossy` is proved to follow it, `LossySpec.v`); only C33 about file names depends on it.
  * unicode-segmentation: clusters are determined left to right by a rule on the cluster so far.
  * syntect: a parser and a scope stack as state machines.
* Release builds wrap on integer underflow where the model says `Panic`. Since the no-panic theorems
  (C03, C49, C39, C57, C76) show that `Panic` is never reached, this makes no difference to them.

## Modelled code

| source | functions |
|---|---|
| buffer/position.rs, distance.rs, range.rs, line_range.rs | all |
| buffer/gap_buffer.rs | all: new, insert, read, delete, in_bounds, find_offset, move_gap, write_to_gap, Display |
| buffer/cursor.rs | all |
| buffer/operation/*.rs | all: run, reverse, clone_operation, History, OperationGroup, insert, delete, delete_range, replace, groups |
| buffer/mod.rs | all: new, default, from_file, data, save, file_name, undo, redo, read, search, modified, line_count, reload, file_extension |
| buffer/token/*.rs, util/line_iterator.rs | all |
| workspace.rs | all; loading a syntax directory is a parameter of `ws_new`; what syntect's set does with the loaded definitions is in `Syntaxes.v` |
| errors.rs | the variants, as an enumeration; messages are not modelled |

Not modelled: error messages and chaining; syntect and unicode-segmentation themselves; reading
syntaxes from a directory; deallocation of `Rc`s as steps (C100 says what can be freed when); write-only files, and disk changes during
a call other than a load, an open or a save; power failures except in a save (`Power.v`); threads (`Rc` forbids them); `Debug` output;
benches and tests.

## What the proofs found

Each is a `_refuted` theorem or the stated limit of a theorem.

1. Positions depend on the gap when a cluster straddles it (C07, C47). Undo of an inserted
   combining mark then deletes the wrong text (C21). An out-of-bounds insert that grows the buffer
   moves the gap and changes what later calls return (C48). An empty range can delete a char.
2. "\r\n" is one cluster, so no line after it is addressable, while line_count counts it (C32).
3. delete_range with a missing end cannot be undone (C21).
4. redo inside a group with edits reorders history (C22).
5. modified() ignores edits in an open group; a save or reload there leaves wrong flags (C24).
6. save truncates before it writes, so a failing save loses the file (C27).
7. search gives byte offsets, not columns, and never finds a needle with a newline (C31).
8. Distance::of_str counts bytes (C10).
9. delete_range and undo leave the cursor outside the text (C16).
10. Token positions are shifted after an event inside a cluster (C36); lexemes can be empty (C50); a
    scope error drops a lexeme and a parse error loses a line if iteration goes on (C38).
11. Taking `workspace.current_buffer` leaves a placeholder buffer in the list (C53).
12. Clones of the cursor and callback handles go stale after replace, reload, or undo of them
    (C59, C60). Writes through `cursor.data` bypass history and callback (C61).
13. A buffer with a hand-assigned path can share its file with another open buffer (C64).
14. Assigning `workspace.current_buffer` while no buffer is selected makes the next add or open panic (C69).
15. A link changed while a file is opened gives a buffer the text of one file and the path of another; a
    file missing for a moment is opened twice (C70).
16. delete_range to line usize::MAX overflows (C67).
17. The documentation of reload says history is discarded; it is kept and the reload can be undone (C28).
18. Two programs that save one file at the same time can both succeed and leave a mixture (C82).
19. A power failure after a save that returned Ok can leave the old text or an empty file (C85).
20. A file with two hard links is opened twice; saving both buffers loses the text of the first (C86).
21. A load during a save can give a mixture of the old and the new text, unmodified (C89).
22. After a change callback's panic is caught, the edit is in the text but not in undo or modified(),
    and a group is undone or redone in part (C90).
23. If another program replaces the file by renaming while it is saved, save returns Ok and the text is lost (C92).
24. A save overwrites what another program has saved since the load, without an error (C94).
25. `syntax_set` is public: after a set without a plain text definition is assigned, adding or opening a buffer can panic (C96).
26. After a save returned `Ok` and the power failed, the file can hold any mixture of old and new bytes and zeros; all zeros open without an error (C97).
27. The undo history has no limit: typing and deleting one letter again and again keeps two operations each time (C98).

## Wrong programs

`seeded/LOG.jsonl` records edits of the model that imitate realistic bugs. Each one was made in a
scratch copy and rebuilt with its proofs; every log line names the first lemma that broke. The
statements were also evaluated on the edited model with concrete inputs, which shows the claims that
become false: a proof can break although its theorem stays true. If a claim
became false and its theorem still built, the theorem was tightened.
`seeded/README.md` has the details.
