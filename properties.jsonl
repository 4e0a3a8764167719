{"id": "C01", "title": "A gap buffer behaves exactly like a plain string", "statement": "For text whose grapheme clusters do not merge when juxtaposed and which has no carriage returns, any sequence of GapBuffer insert / delete / read / in_bounds / to_string calls returns exactly what the same calls on an ordinary immutable string would return: insert splices the data in at the (line, grapheme offset) position, delete cuts the range out, read returns the text between the two positions, in_bounds says whether the position exists, and no call panics.", "quantifier": "all initial texts and finite call sequences, with all arguments, in which no call joins two pieces of text into one cluster; all gap locations and all allocator capacity choices", "why_tests_cant": "the state that matters (where the gap sits, how much spare capacity there is) is hidden and grows with the call history; tests visit a handful of gap placements", "anchors": ["src/buffer/gap_buffer.rs: GapBuffer::new, insert, read, delete, in_bounds, find_offset, move_gap, write_to_gap, fmt"]}
{"id": "C02", "title": "Text is never corrupted, whatever the Unicode content", "statement": "For any valid Unicode text at all (combining marks, CRLF, emoji included) and any segmentation behaviour: an insert call that returns leaves the content either unchanged or equal to prefix ++ data ++ suffix for some split of the previous content; a delete call that returns leaves it equal to the previous content with one contiguous piece removed; read returns a contiguous piece of the content. No replacement character, gap byte or uninitialised byte ever becomes visible.", "quantifier": "all texts, all call histories, all segmentation functions, all allocator results including the bytes found in fresh memory", "why_tests_cant": "depends on every byte alignment of multi-byte characters against the gap and on uninitialised memory contents, which tests cannot enumerate", "anchors": ["src/buffer/gap_buffer.rs: insert, read, delete, find_offset, move_gap, write_to_gap, fmt"]}
{"id": "C03", "title": "GapBuffer calls never panic on any Unicode text", "statement": "No sequence of GapBuffer insert / delete / read / in_bounds / to_string calls, with any positions and any text, hits an index-out-of-bounds, inverted slice or integer underflow panic.", "quantifier": "all texts, all positions (in or out of bounds), all call sequences, all gap placements", "why_tests_cant": "delete re-resolves the end position after moving the gap, so underflow depends on how clusters re-segment around the gap; only an argument over all texts settles it", "anchors": ["src/buffer/gap_buffer.rs: insert, read, delete, move_gap, write_to_gap"]}
{"id": "C04", "title": "Uninitialised spare memory is never observable", "statement": "For any text, the results of all GapBuffer calls are the same whatever bytes the freshly allocated spare memory contains. For text whose clusters do not merge when juxtaposed they are also the same whatever capacity the allocator returns.", "quantifier": "all pairs of allocator behaviours, all call sequences", "why_tests_cant": "a test runs with one allocator and one memory image", "anchors": ["src/buffer/gap_buffer.rs: GapBuffer::new (set_len), insert (reserve, set_len)"]}
{"id": "C05", "title": "Out-of-bounds edits leave the content alone", "statement": "Inserting at a position that does not exist leaves the content unchanged (for text whose clusters do not merge when juxtaposed, and for any text when the data fits in the spare capacity). For any text, deleting a range whose start does not exist leaves the buffer unchanged, and reading with either end missing returns None.", "quantifier": "all out-of-bounds positions; the insert clause over all buffers whose newlines are clusters of their own (no carriage return before them) and whose reads agree with their text (new buffers, and buffers after any calls that did not merge clusters), the others over all buffers", "why_tests_cant": "infinitely many positions and hidden gap states", "anchors": ["src/buffer/gap_buffer.rs: insert, delete, read"]}
{"id": "C06", "title": "Delete clamps a range end that does not exist", "statement": "When the start of a deleted range exists but its end does not: if a line follows the end's line the deletion stops at the start of that following line, otherwise everything after the start is removed.", "quantifier": "all ranges with existing start and missing end, all buffers whose newlines are clusters of their own (no carriage return before them) and whose reads agree with their text (new buffers, and buffers after any calls that did not merge clusters)", "why_tests_cant": "combinatorics of line structure and positions", "anchors": ["src/buffer/gap_buffer.rs: delete"]}
{"id": "C07", "title": "A position means the same place however the text was produced", "statement": "in_bounds / read answers depend only on the text of the buffer, not on the edits that produced it.", "quantifier": "all pairs of histories producing the same text", "why_tests_cant": "needs comparison of all histories; the failing ones need a cluster straddling the gap", "anchors": ["src/buffer/gap_buffer.rs: find_offset"]}
{"id": "C08", "title": "Positions are totally ordered and ranges normalise", "statement": "Position comparison is the lexicographic total order on (line, offset); Range::new always yields start <= end, containing the same two positions; includes(p) holds exactly when start <= p < end; Position::new() is the least position and exists in every buffer.", "quantifier": "all positions and ranges", "why_tests_cant": "infinite domain", "anchors": ["src/buffer/position.rs: PartialOrd", "src/buffer/range.rs: Range::new, includes"]}
{"id": "C09", "title": "Line ranges agree with character ranges", "statement": "LineRange::new orders its bounds; line l is included iff every position on l is included in to_range(); to_inclusive_range() additionally includes exactly the last line; and deleting such a range from a buffer removes exactly those whole lines.", "quantifier": "all line numbers and positions; the deletion clause over all buffers whose newlines are clusters of their own (no carriage return before them) and whose reads agree with their text (new buffers, and buffers after any calls that did not merge clusters)", "why_tests_cant": "infinite domain", "anchors": ["src/buffer/line_range.rs: LineRange::*", "src/buffer/gap_buffer.rs: delete"]}
{"id": "C10", "title": "Position plus Distance is the end of inserted text", "statement": "For text inserted at a position, position + Distance::of_str(text) is the position just after it (so reading between the two returns the inserted text). Holds for ASCII text; the full Unicode statement is false because the distance is measured in bytes.", "quantifier": "all buffers, positions and inserted texts", "why_tests_cant": "infinite domain; failing inputs are non-ASCII", "anchors": ["src/buffer/distance.rs: of_str", "src/buffer/position.rs: Add, AddAssign"]}
{"id": "C11", "title": "move_to is an exact bounds check", "statement": "move_to(p) returns true and sets the cursor (and the remembered column) to p exactly when p exists in the text; otherwise it returns false and changes nothing.", "quantifier": "all positions and cursors, all buffers whose newlines are clusters of their own (no carriage return before them) and whose reads agree with their text (new buffers, and buffers after any calls that did not merge clusters); agreement with in_bounds over all buffers", "why_tests_cant": "infinite domain", "anchors": ["src/buffer/cursor.rs: move_to", "src/buffer/gap_buffer.rs: in_bounds"]}
{"id": "C12", "title": "Cursor movement never leaves the buffer", "statement": "After any sequence of cursor movement calls the cursor is either where it started or at an existing position; from an existing position it always stays at an existing position; no movement panics or alters the text.", "quantifier": "all buffers, all Unicode text, all movement sequences", "why_tests_cant": "unbounded sequences and texts", "anchors": ["src/buffer/cursor.rs: move_*"]}
{"id": "C13", "title": "Vertical movement keeps the desired column", "statement": "From an in-bounds cursor any sequence of move_up / move_down ends on the line obtained by clamped arithmetic, at column min(remembered column, length of that line), and never forgets the remembered column.", "quantifier": "all sequences of up/down, all buffers whose newlines are clusters of their own (no carriage return before them) and whose reads agree with their text (new buffers, and buffers after any calls that did not merge clusters)", "why_tests_cant": "unbounded sequences and line shapes", "anchors": ["src/buffer/cursor.rs: move_up, move_down"]}
{"id": "C14", "title": "Horizontal and line-edge movement", "statement": "move_left / move_right change the column by exactly one within [0, line length] and never change the line; move_to_start_of_line goes to column 0; move_to_end_of_line goes to the number of graphemes on the line.", "quantifier": "all cursors in bounds; left and start of line over all buffers, right and end of line over all buffers whose newlines are clusters of their own (no carriage return before them) and whose reads agree with their text (new buffers, and buffers after any calls that did not merge clusters)", "why_tests_cant": "infinite domain", "anchors": ["src/buffer/cursor.rs: move_left, move_right, move_to_start_of_line, move_to_end_of_line"]}
{"id": "C15", "title": "First/last line movement", "statement": "move_to_first_line / move_to_last_line go to the first / last line at column min(remembered column, its length), for every text including empty ones and ones with a trailing newline.", "quantifier": "all cursors, all buffers whose newlines are clusters of their own (no carriage return before them) and whose reads agree with their text (new buffers, and buffers after any calls that did not merge clusters)", "why_tests_cant": "infinite domain", "anchors": ["src/buffer/cursor.rs: move_to_first_line, move_to_last_line"]}
{"id": "C16", "title": "The buffer cursor always points into the buffer", "statement": "After any sequence of buffer calls the cursor position exists in the text. (Expected false: edits and undo do not adjust the cursor.)", "quantifier": "all call sequences", "why_tests_cant": "needs a search over histories", "anchors": ["src/buffer/cursor.rs: Cursor", "src/buffer/operation/insert.rs: Buffer::insert", "src/buffer/operation/delete.rs: Buffer::delete_range", "src/buffer/mod.rs: undo"]}
{"id": "C17", "title": "Undo exactly reverses the last edit and redo re-applies it", "statement": "For every insert, delete, in-bounds delete_range and replace on non-merging text, undo right after it restores the exact previous text, and a following redo restores the exact edited text.", "quantifier": "all texts, cursors (even out of bounds) and prior histories, and all edits that do not tear or merge clusters and whose range ends exist (C21 is the statement for every edit)", "why_tests_cant": "the reverse range is recomputed from the content; all texts and gap states matter", "anchors": ["src/buffer/operation/insert.rs: run, reverse", "src/buffer/operation/delete.rs: run, reverse", "src/buffer/operation/replace.rs: run, reverse", "src/buffer/operation/history.rs: previous, next", "src/buffer/mod.rs: undo, redo"]}
{"id": "C18", "title": "Undo/redo is a linear timeline", "statement": "For any sequence of edits, undos, redos, groups and cursor calls, the buffer text is that of a simple timeline (past texts, present, future texts): edits push the present on the past and clear the future, undo/redo move along it.", "quantifier": "all call sequences on non-merging text where delete_range ends exist and redo is not called while an open group has edits", "why_tests_cant": "unbounded histories", "anchors": ["src/buffer/operation/history.rs: add, previous, next", "src/buffer/operation/group.rs: *", "src/buffer/mod.rs: undo, redo"]}
{"id": "C19", "title": "Operation groups are atomic", "statement": "All edits between start_operation_group and end_operation_group are undone by one undo and redone by one redo; an empty group leaves no trace; an unterminated group is undone as a unit and undo closes it.", "quantifier": "all edit sequences inside the group and all prior histories, for edits that do not tear or merge clusters and whose range ends exist", "why_tests_cant": "unbounded group contents", "anchors": ["src/buffer/operation/group.rs: start_operation_group, end_operation_group, run, reverse", "src/buffer/mod.rs: undo"]}
{"id": "C20", "title": "A new edit discards the redo future", "statement": "After any edit outside a group, redo changes nothing.", "quantifier": "all histories", "why_tests_cant": "unbounded histories", "anchors": ["src/buffer/operation/history.rs: add, next"]}
{"id": "C21", "title": "Undo restores the text for every delete_range and every Unicode insert", "statement": "undo after any delete_range or insert restores the previous text. (Expected false: delete_range whose end does not exist stores no content; inserted combining marks and CRLF are mis-measured.)", "quantifier": "all texts, ranges and contents", "why_tests_cant": "counterexamples need specific Unicode or out-of-bounds ends", "anchors": ["src/buffer/operation/delete.rs: run, reverse", "src/buffer/operation/insert.rs: reverse"]}
{"id": "C22", "title": "Redo inside an open group is safe", "statement": "Calling redo while a group with edits is open keeps undo able to return to earlier texts. (Expected false.)", "quantifier": "all call sequences", "why_tests_cant": "counterexample is an unusual interleaving", "anchors": ["src/buffer/mod.rs: redo", "src/buffer/operation/group.rs: end_operation_group"]}
{"id": "C23", "title": "An unmodified buffer equals what was last loaded or saved", "statement": "If modified() is false then the text equals the text at the last successful from_file / save / reload, for every history in which save and reload happen outside edit groups and no edit group is open; and undoing back to the save point makes modified() false again.", "quantifier": "all call sequences including undo past the save point and branching edits, for edits that do not tear or merge clusters and whose range ends exist (C24 is the statement with a group open)", "why_tests_cant": "unbounded histories; depends on mark invalidation", "anchors": ["src/buffer/operation/history.rs: mark, at_mark, add", "src/buffer/mod.rs: modified, save, reload, from_file"]}
{"id": "C24", "title": "modified() is trustworthy while a group is open", "statement": "modified() is true whenever the text differs from the saved text. (Expected false with open groups, or when saving inside a group.)", "quantifier": "all call sequences", "why_tests_cant": "unusual interleavings", "anchors": ["src/buffer/mod.rs: modified, save", "src/buffer/operation/group.rs: *"]}
{"id": "C25", "title": "Buffers that never had a path are always modified", "statement": "A buffer made by Buffer::new whose path is never set reports modified() = true after any sequence of calls (including failing saves and reloads).", "quantifier": "all call sequences", "why_tests_cant": "unbounded histories", "anchors": ["src/buffer/mod.rs: Default, modified, save, reload"]}
{"id": "C26", "title": "Save then load is the identity", "statement": "A save that returns Ok leaves exactly the UTF-8 bytes of data() at the path and at every other name (link, relative path) of the same file, other files untouched, the text, cursor and undo history unchanged and modified() false; from_file under any name of it then yields a buffer with the same text, at the origin, unmodified. A buffer loaded under any name of a file is saved back to that file, whatever happened to the buffer in between.", "quantifier": "all texts, all histories, all file systems with any links", "why_tests_cant": "all texts and histories", "anchors": ["src/buffer/mod.rs: save, from_file"]}
{"id": "C27", "title": "A failing save does not lose data", "statement": "If save returns an error the in-memory text, history and modified flag are unchanged; and the file holds either its old or new content. (Second half expected false: the file is truncated before it is written.)", "quantifier": "all failure points", "why_tests_cant": "needs fault injection at each point", "anchors": ["src/buffer/mod.rs: save"]}
{"id": "C28", "title": "Reload takes the on-disk text", "statement": "A reload that returns Ok makes the text equal to the file, modified() false, keeps id and syntax, and the previous text can be brought back with undo; without a path, or if the file cannot be read or is not UTF-8, it returns an error and changes nothing.", "quantifier": "all histories, all file contents", "why_tests_cant": "unbounded", "anchors": ["src/buffer/mod.rs: reload", "src/buffer/operation/replace.rs: replace"]}
{"id": "C29", "title": "Replace keeps the cursor as well as it can", "statement": "After replace the cursor is at its old position if that exists in the new text, else at the start of its line if that exists, else at (0,0); it is always in bounds; replacing with identical text changes nothing at all, history included.", "quantifier": "all texts, all cursors", "why_tests_cant": "infinite domain", "anchors": ["src/buffer/operation/replace.rs: replace, replace_content"]}
{"id": "C30", "title": "Every change is announced, at or before the first changed line", "statement": "With a change callback installed, any Buffer call that changes the text invokes the callback, and no line before the smallest line announced by any number of calls is altered, nor is the newline that ends it.", "quantifier": "all Unicode texts, all segmentation behaviours, all calls including undo/redo of groups, all histories", "why_tests_cant": "unbounded histories and texts; cache-invalidation contract", "anchors": ["src/buffer/operation/insert.rs: run, reverse", "src/buffer/operation/delete.rs: run, reverse", "src/buffer/operation/replace.rs: replace_content"]}
{"id": "C31", "title": "Search finds exactly the occurrences of a single-line needle", "statement": "On ASCII text search(needle) lists, in order and without repeats, exactly the positions at which the needle (without newline) starts; reading len(needle) characters from each returns the needle. False for non-ASCII text (byte offsets) and multi-line needles.", "quantifier": "all texts and needles", "why_tests_cant": "infinite domain", "anchors": ["src/buffer/mod.rs: search"]}
{"id": "C32", "title": "line_count agrees with addressable lines", "statement": "line_count() is one more than the number of newlines and (l,0) is in bounds exactly when l < line_count(). False for CRLF text.", "quantifier": "all texts", "why_tests_cant": "infinite domain", "anchors": ["src/buffer/mod.rs: line_count", "src/buffer/gap_buffer.rs: in_bounds"]}
{"id": "C33", "title": "File name and extension are consistent", "statement": "file_name() is the last normal path component when it is valid UTF-8; file_extension() is the non-empty text after its last dot when something precedes that dot, else None.", "quantifier": "all paths", "why_tests_cant": "infinite domain", "anchors": ["src/buffer/mod.rs: file_name, file_extension"]}
{"id": "C34", "title": "LineIterator partitions the text", "statement": "The yielded lines, concatenated, are the text; they are numbered 0,1,2,...; each contains a newline only as its last character; there are exactly newline-count + 1 of them; afterwards next() returns None forever.", "quantifier": "all texts", "why_tests_cant": "infinite domain", "anchors": ["src/util/line_iterator.rs: next, out_of_data"]}
{"id": "C35", "title": "Tokens reproduce the buffer", "statement": "Concatenating lexeme values, with a newline for each Newline token, gives exactly the buffer data, for whatever (ordered, in-line, char-aligned) scope events the parser emits; lexemes contain no newline; iteration terminates and never panics; after the end next() keeps returning None.", "quantifier": "all texts, all parser behaviours meeting the stated contract", "why_tests_cant": "parser-dependent, infinite", "anchors": ["src/buffer/token/token_iterator.rs: *", "src/util/line_iterator.rs: next"]}
{"id": "C36", "title": "Token positions point at the token", "statement": "Each lexeme's position is the position in the buffer at which its value starts, so reading the value's length from there returns it (texts whose clusters are single characters).", "quantifier": "all such texts, all parser behaviours", "why_tests_cant": "infinite", "anchors": ["src/buffer/token/token_iterator.rs: build_next_token"]}
{"id": "C37", "title": "Token scopes are the parser's scopes", "statement": "Each lexeme's scope is the result of applying, in order, all scope events emitted at or before its first byte and nothing later.", "quantifier": "all texts, all parser behaviours", "why_tests_cant": "infinite", "anchors": ["src/buffer/token/token_iterator.rs: build_next_token"]}
{"id": "C38", "title": "Tokenizer errors are reported, not swallowed", "statement": "If the parser or scope stack fails, next() returns None with the error recorded; when iteration ends without a recorded error nothing failed; tokens yielded before the error are a prefix of the text. (Iteration resuming after the error is possible.)", "quantifier": "all failure points", "why_tests_cant": "fault injection at each event", "anchors": ["src/buffer/token/token_iterator.rs: next_token, parse_next_line"]}
{"id": "C39", "title": "A workspace is a list of buffers with a selection", "statement": "Any sequence of add / open / close / next / previous / edits of the current buffer behaves like a plain list with a selected index: no buffer is lost, duplicated, reordered or replaced by a blank, edits stick to the edited buffer, and nothing panics.", "quantifier": "all call sequences", "why_tests_cant": "checkout/check-in through a blank placeholder depends on history", "anchors": ["src/workspace.rs: add_buffer, open_buffer, close_current_buffer, previous_buffer, next_buffer, select_buffer"]}
{"id": "C40", "title": "Buffer ids are unique for the life of a workspace", "statement": "Every buffer added gets an id different from every id given out before, including those of closed buffers, and keeps it.", "quantifier": "all call sequences (short of usize overflow)", "why_tests_cant": "unbounded", "anchors": ["src/workspace.rs: add_buffer"]}
{"id": "C41", "title": "A selection exists exactly when there are buffers", "statement": "current_buffer is Some and current_buffer_index is a valid index exactly when the workspace is non-empty.", "quantifier": "all call sequences", "why_tests_cant": "unbounded", "anchors": ["src/workspace.rs: *"]}
{"id": "C42", "title": "Opening the same file twice does not duplicate it", "statement": "open_buffer on a path whose canonical path is already open selects that buffer with its edits intact and adds nothing; workspaces filled only through open_buffer never hold two buffers with the same path; a failing open changes nothing.", "quantifier": "all call sequences, all file systems", "why_tests_cant": "unbounded", "anchors": ["src/workspace.rs: open_buffer, select_buffer_by_path"]}
{"id": "C43", "title": "next/previous cycle through all buffers", "statement": "next_buffer and previous_buffer are mutually inverse, and n next calls on n buffers return to the start having visited each buffer once.", "quantifier": "all workspaces", "why_tests_cant": "unbounded", "anchors": ["src/workspace.rs: next_buffer, previous_buffer"]}
{"id": "C44", "title": "Closing removes exactly the current buffer", "statement": "close_current_buffer removes the selected buffer only, keeps the order of the rest, selects the previous one (or the new first), and does nothing on an empty workspace.", "quantifier": "all workspaces", "why_tests_cant": "unbounded", "anchors": ["src/workspace.rs: close_current_buffer"]}
{"id": "C45", "title": "Buffer paths are reported relative to the workspace", "statement": "buffer_paths has one entry per buffer in order, its entry at current_buffer_index equals current_buffer_path, each entry is the buffer's path with the workspace path stripped if it is inside the workspace and as it is otherwise, and for a buffer with an absolute path (any opened file) joining the entry to the workspace path gives the buffer's path back.", "quantifier": "all workspaces", "why_tests_cant": "unbounded", "anchors": ["src/workspace.rs: buffer_paths, current_buffer_path"]}
{"id": "C46", "title": "Every workspace buffer can be tokenized", "statement": "In any workspace whose buffers came through add_buffer/open_buffer, current_buffer_tokens fails only when the workspace is empty, and yields the current buffer's data.", "quantifier": "all call sequences", "why_tests_cant": "unbounded", "anchors": ["src/workspace.rs: add_buffer, update_current_syntax, current_buffer_tokens"]}
{"id": "C47", "title": "Capacity is unobservable for every text", "statement": "For every text, the results of all GapBuffer calls are the same whatever capacity the allocator returns. (False: when a cluster straddles the gap, a reallocation moves the gap and changes which positions exist.)", "quantifier": "all texts, call sequences and allocators", "why_tests_cant": "needs every capacity at every call, and a text whose clusters straddle the gap", "anchors": ["src/buffer/gap_buffer.rs: GapBuffer::new (set_len), insert (reserve, set_len)"]}
{"id": "C48", "title": "Out-of-bounds inserts leave every text alone", "statement": "Inserting at a position for which in_bounds answers false leaves the content unchanged, for every text. (False: after a reallocation the position is looked up again in a differently split text.)", "quantifier": "all texts, histories, allocators and positions", "why_tests_cant": "depends on where the gap is relative to a multi-character cluster", "anchors": ["src/buffer/gap_buffer.rs: insert, delete, read"]}
{"id": "C49", "title": "Buffer calls never panic and keep the text valid", "statement": "No sequence of Buffer calls (insert, delete, delete_range, replace, undo, redo, operation groups, cursor movement, save, reload, assignments to the public fields), on any Unicode text and with any positions, panics; and the text is valid Unicode after each of them.", "quantifier": "every call sequence, every valid text, every position and range, every disk content, every allocator", "why_tests_cant": "Panics hide in particular combinations of cursor position, gap position, cluster boundaries and history; no finite suite covers the combinations.", "anchors": ["src/buffer/mod.rs: Buffer", "src/buffer/operation/*.rs", "src/buffer/gap_buffer.rs: GapBuffer"]}
{"id": "C50", "title": "Lexemes are not empty", "statement": "Every lexeme yielded by a token iterator has a non-empty value. False of the code: an event at the end of a line's content followed by one after its newline yields an empty lexeme; only the last lexeme of a line can be empty.", "quantifier": "all texts, all parser behaviours meeting the stated contract", "why_tests_cant": "depends on which offsets the grammar emits; tests try a few grammars on a few lines", "anchors": ["src/buffer/token/token_iterator.rs: build_next_token"]}
{"id": "C51", "title": "Syntax definitions are chosen by extension, name, or plain text", "statement": "add_buffer and open_buffer keep the syntax definition of a buffer that has one, and otherwise give it the one registered for its file extension, or, without an extension, for its file name, or plain text; they change nothing else but the id. update_current_syntax makes the same choice again and changes nothing else.", "quantifier": "all workspaces, buffers, paths and syntax sets", "why_tests_cant": "depends on every combination of path, registered syntaxes and previous definition", "anchors": ["src/workspace.rs: add_buffer, update_current_syntax"]}
{"id": "C52", "title": "Only assignments change id, path, syntax definition and callback", "statement": "No insert, delete, replace, undo, redo, operation group, cursor movement, save or reload changes a buffer's id, path, syntax definition or change callback.", "quantifier": "all buffers and calls", "why_tests_cant": "unbounded histories; replace and reload rebuild the text storage", "anchors": ["src/buffer/mod.rs: *", "src/buffer/operation/*"]}
{"id": "C53", "title": "A buffer taken out of the workspace is gone", "statement": "After taking the buffer out of the public field current_buffer, the workspace holds the other buffers, in order and unchanged, and nothing else.", "quantifier": "all workspaces with a current buffer", "why_tests_cant": "depends on the placeholder left in the list", "anchors": ["src/workspace.rs: Workspace.current_buffer, select_buffer"]}
{"id": "C54", "title": "Edits, groups, saves and assignments leave the cursor where it is", "statement": "insert, delete, delete_range, start_operation_group, end_operation_group, save and assigning the path, id, syntax definition or callback leave the cursor's position and its remembered column exactly as they were; only replace, reload, undo, redo and explicit movements may change it.", "quantifier": "all buffers in any state, all texts, segmentations and arguments", "why_tests_cant": "ranges over every buffer state and argument, including cursors left dangling by earlier edits", "anchors": ["src/buffer/operation/insert.rs", "src/buffer/operation/delete.rs", "src/buffer/cursor.rs: sync_data"]}
{"id": "C55", "title": "The change callback is told exactly where each edit took place", "statement": "With a change callback set, insert and delete announce exactly the cursor position, delete_range exactly the start of its range, replace and reload exactly the origin when the text differs and nothing when it does not, and every other call but undo and redo announces nothing; without a callback nothing is announced.", "quantifier": "all buffers in any state, texts, segmentations, arguments and file contents", "why_tests_cant": "the argument of the callback must be right for every position and history", "anchors": ["src/buffer/mod.rs: change_callback", "src/buffer/operation/*: run, reverse"]}
{"id": "C56", "title": "A buffer behaves as an abstract editor", "statement": "Over any sequence of calls on a new buffer or one loaded from a file, every result and everything observable (text, reads, bounds, line count, modified flag, cursor and remembered column, path, id, syntax definition, callback, announcements including those of undo and redo, and the disk) are those of an abstract editor that keeps a timeline of whole texts and a list of changes.", "quantifier": "all sequences of calls, of any length, whose edits do not tear or merge grapheme clusters and do not meet the documented group and path exceptions", "why_tests_cant": "unbounded histories mixing edits, undo, redo, groups, saves, reloads and cursor movements", "anchors": ["src/buffer/mod.rs: *", "src/buffer/operation/*", "src/buffer/cursor.rs: *"]}
{"id": "C57", "title": "Shared storage never causes a borrow panic", "statement": "No sequence of calls on a buffer, on clones of its cursor and on the storage they share, with a change callback that itself borrows that storage mutably, ever panics, and no borrow is left out after a call.", "quantifier": "all programs: every sequence of buffer, cursor-clone and storage calls, including assigning a clone back to the buffer's cursor, all texts", "why_tests_cant": "RefCell conflicts depend on which borrows are alive when the callback or a nested method runs; tests exercise a few paths", "anchors": ["src/buffer/cursor.rs: Cursor, move_to, move_up, move_down, move_to_last_line, move_to_first_line", "src/buffer/mod.rs: Buffer, data, read", "src/buffer/operation/insert.rs", "src/buffer/operation/delete.rs", "src/buffer/operation/replace.rs: replace_content"]}
{"id": "C58", "title": "Sharing the text is unobservable to ordinary programs", "statement": "For programs that only use cursor clones to move and read, the buffer behaves as if it owned its text outright: results, disk and every field are those of the buffer calls alone, and the buffer's cursor always refers to the buffer's own text.", "quantifier": "all sequences of calls without assignment of buffer.cursor and without writes through cursor.data", "why_tests_cant": "aliasing bugs appear only under particular interleavings of replace, undo, clones and moves", "anchors": ["src/buffer/mod.rs: Buffer", "src/buffer/cursor.rs: Cursor", "src/buffer/operation/replace.rs: replace_content"]}
{"id": "C59", "title": "A clone of the buffer's cursor moves in the buffer's text", "statement": "However the buffer is edited after the clone was made, moving a clone of its cursor takes it where the buffer's own cursor would go from there.", "quantifier": "all programs, clones and movements", "why_tests_cant": "needs all histories of edits between cloning and moving", "anchors": ["src/buffer/cursor.rs: Cursor (Clone, data)", "src/buffer/operation/replace.rs: replace_content"]}
{"id": "C60", "title": "A change callback sees the changed text", "statement": "A change callback that reads the text through a handle it captured sees, when it is told of a change, the text after the change.", "quantifier": "all programs and all calls, including undo and redo of groups", "why_tests_cant": "depends on the order of the edit and the notification in every operation and on whether storage was replaced", "anchors": ["src/buffer/mod.rs: change_callback", "src/buffer/operation/insert.rs", "src/buffer/operation/delete.rs", "src/buffer/operation/replace.rs"]}
{"id": "C61", "title": "Only calls on the buffer change the buffer", "statement": "Cloning the cursor, moving clones and using the public data handle of a cursor leave the buffer's text, history and modified flag consistent: nothing but calls on the buffer changes its text.", "quantifier": "all programs", "why_tests_cant": "unbounded interleavings of buffer calls and calls on clones", "anchors": ["src/buffer/cursor.rs: Cursor.data", "src/buffer/mod.rs: modified"]}
{"id": "C62", "title": "The positions of any buffer form lines without holes", "statement": "Whatever the text and whatever calls produced it, the positions in_bounds accepts are exactly those of at least one line, numbered from 0 without gaps, with every column from 0 up to some width on each line.", "quantifier": "all Unicode texts, all call sequences, all positions", "why_tests_cant": "The accepted positions depend on where the gap sits inside clusters; only an argument over every split of every text shows that no hole can appear.", "anchors": ["src/buffer/gap_buffer.rs: in_bounds, find_offset"]}
{"id": "C63", "title": "Reads of neighbouring ranges join to the whole text", "statement": "For positions p <= q <= r with q in bounds, read(p..r) is read(p..q) followed by read(q..r); reading from the first position to the last one gives the whole text; and data that fits in the spare capacity is inserted just after what read(start..p) returns.", "quantifier": "all Unicode texts, all call sequences, all positions", "why_tests_cant": "Ranges may start before the gap, end after it or touch it, and clusters may straddle it; tests sample a few splits.", "anchors": ["src/buffer/gap_buffer.rs: read, find_offset, insert"]}
{"id": "C64", "title": "No two open buffers lead to the same file", "statement": "In any workspace the paths of two different open buffers lead to different files, whatever links and relative names there are, so saving one never overwrites the file of another. (Expected false for buffers whose path was assigned by hand.)", "quantifier": "all call sequences, all file systems with any links", "why_tests_cant": "any mix of names, links and open/close/save histories", "anchors": ["src/workspace.rs: open_buffer, add_buffer, select_buffer_by_path", "src/buffer/mod.rs: from_file, save, path"]}
{"id": "C65", "title": "Every gap buffer call means what a marked text says, for every text", "statement": "A gap buffer behaves as a text with a mark where the last edit was: columns count grapheme clusters of the part before the mark and of the part after it separately, an insert goes where its position is met, a delete removes from its start to its end (or to the next line, or to the end of the text), a read returns the piece between two positions, and an insert that does not fit first moves the mark to the end. No call panics.", "quantifier": "all texts, all call sequences, all positions, all allocators", "why_tests_cant": "every history on every text, with clusters that straddle the place of the last edit and any spare capacity", "anchors": ["src/buffer/gap_buffer.rs: GapBuffer::new, insert, delete, read, in_bounds, to_string, find_offset"]}
{"id": "C66", "title": "Machine integers do not overflow", "statement": "While inserted strings and assigned cursor positions stay within isize::MAX and range lines below usize::MAX, no call of the buffer API overflows an integer: a session either runs out of memory or returns exactly what it would return with unbounded integers, and does not panic.", "quantifier": "all word sizes, all new or loaded buffers, all call sequences within these limits, all allocators, all segmentation functions (panic freedom: UAX #29)", "why_tests_cant": "overflow needs texts and positions near 2^63; no test can allocate them, and the sums depend on every state", "anchors": ["src/buffer/gap_buffer.rs: find_offset, move_gap, write_to_gap, delete", "src/buffer/cursor.rs: move_down, move_right, move_to_last_line", "src/buffer/operation/insert.rs: Insert::reverse", "src/buffer/operation/delete.rs: Buffer::delete"]}
{"id": "C67", "title": "Calls accept every position", "statement": "No position given to a call, however large, makes it overflow an integer: bounds checks, reads, inserts, deletes, cursor placements and movements treat it as out of bounds. Position + Distance and LineRange::to_inclusive_range overflow only if their result does not fit.", "quantifier": "all positions and ranges up to usize::MAX, all buffers reached by any history", "why_tests_cant": "the failing positions are single values at the edge of a 64-bit range", "anchors": ["src/buffer/gap_buffer.rs: insert, read, delete, in_bounds", "src/buffer/cursor.rs: move_to, move_down, move_right", "src/buffer/operation/delete.rs: Buffer::delete_range", "src/buffer/position.rs: Add, AddAssign", "src/buffer/line_range.rs: to_inclusive_range"]}
{"id": "C68", "title": "Every call has a meaning for every text", "statement": "For every text (any line ends, combining marks, flags, emoji), every cursor, every sequence of buffer calls and every allocator, no call panics, and the text, reads, bounds, cursor, modified flag, announcements, fields, return values and disk are those of a simple editor: a text with a mark at the last edit, a past and a future of remembered edits.", "quantifier": "all texts, positions, call sequences, file contents, write failures and allocators; all fresh buffers; UAX #29 segmentation over any class table with a newline class", "why_tests_cant": "what an edit or undo does to text whose clusters merge depends on where earlier edits left the gap and on how much memory was allocated, over unbounded histories", "anchors": ["src/buffer/mod.rs: Buffer", "src/buffer/gap_buffer.rs: GapBuffer", "src/buffer/cursor.rs: Cursor", "src/buffer/operation: Insert, Delete, Replace, OperationGroup, History"]}
{"id": "C69", "title": "The public current_buffer field", "statement": "However a caller assigns, takes or edits through the public field workspace.current_buffer between calls, later workspace calls act on the buffer that was put there and keep every other buffer; they do not panic, lose a buffer or lose its syntax.", "quantifier": "all sequences of workspace calls and assignments of any buffer, or none, to the field; all disks and allocators", "why_tests_cant": "an assignment matters only through the calls that follow it, over unbounded interleavings", "anchors": ["src/workspace.rs: Workspace::current_buffer, add_buffer, open_buffer, next_buffer, previous_buffer, close_current_buffer, update_current_syntax"]}
{"id": "C70", "title": "Opening while the disk changes", "statement": "If other programs change the disk while a file is opened, opening acts as if the file had been read at one moment of the call: no panic, a buffer holds the text of the file it is named after, and no file is open twice.", "quantifier": "all disks at each of the moments at which the call looks at the disk, all workspaces reached by any history of such calls", "why_tests_cant": "the outcome depends on the interleaving of another process with the system calls inside one call", "anchors": ["src/workspace.rs: open_buffer", "src/buffer/mod.rs: Buffer::from_file"]}
{"id": "C71", "title": "Tokens are exactly the lines cut at the parser's events", "statement": "If nothing fails, the lexemes between two newline tokens are, in order, the bytes of that line (without its newline) cut at the offsets of the events the parser gave for it: an event cuts if it is beyond the last cut, other events do not, and what is left after the last cut is a lexeme if it is not empty.", "quantifier": "all texts, all parsers that give events at char boundaries (in any order), all scope stacks", "why_tests_cant": "infinitely many texts and event sequences; tests try a few grammars on a few lines", "anchors": ["src/buffer/token/token_iterator.rs: new, next, build_next_token, parse_next_line", "src/buffer/token/token_set.rs: iter"]}
{"id": "C72", "title": "Reallocations are few and memory is bounded", "statement": "With a vector that grows as the standard library's does, a sequence of calls in which no text longer than n bytes is asked for reallocates at most max(1, log2(n) - 1) times and never holds more than twice n bytes (or 8, or what it had at the start). A call reallocates exactly if it inserts more bytes than are free.", "quantifier": "all sequences of gap buffer calls, texts and starting buffers", "why_tests_cant": "a bound over sessions of any length; tests run a few edits and do not look at memory", "anchors": ["src/buffer/gap_buffer.rs: GapBuffer (\"designed to minimize reallocations\"), new, insert, delete"]}
{"id": "C73", "title": "A workspace session is that of a list of text editors, for every text", "statement": "Take any sequence of calls on a new workspace: adding a buffer, opening a path, closing, going to the next or previous buffer, any call on the current buffer (inserting, deleting, replacing, moving the cursor, grouping, undoing, redoing, saving, reloading), updating the syntax, assigning the path or the syntax set, or somebody else changing the disk. Every call returns what it returns on a plain list of editors that share one disk and of which one is selected, the disk ends up the same, no call panics, and afterwards the selection, the paths as shown, the token set of the current buffer and, for every open buffer, its text, ranges read, cursor, modified flag, path, id and syntax are those of the list. Nothing is assumed about the texts.", "quantifier": "every file system, syntax set, sequence of calls with any texts, positions and paths, every allocation outcome, every grapheme classification in which the newline is a newline", "why_tests_cant": "A whole session interleaves several buffers and the disk: what a call returns depends on every call before it, on the buffer selected then, on which file was read when, and on how the clusters of all texts merge at the gap; tests run a few sessions on a few ASCII texts", "anchors": ["src/workspace.rs: Workspace", "src/buffer/mod.rs: Buffer", "src/buffer/gap_buffer.rs: GapBuffer", "src/buffer/cursor.rs: Cursor", "src/buffer/operation/history.rs: History"]}
{"id": "C74", "title": "Workspaces, lines, searches and tokens do not overflow machine integers until the ids are used up", "statement": "usize holds numbers up to usize::MAX and a string is at most isize::MAX bytes long. A session on a workspace in which at most usize::MAX calls add a buffer or open a path, and whose edits use texts and positions within those limits, runs out of memory or returns what it returns on unbounded numbers, and does not panic. Adding a buffer overflows exactly if usize::MAX ids have been given out before, and no other call overflows except opening a path then. Reading the text, counting its lines, searching it, going through its lines and going through its tokens, for any number of steps and whatever the parser answers, never overflow. Every session runs on a machine with enough memory.", "quantifier": "every machine size, file system, syntax set, sequence of calls, allocation outcome, text, needle, number of iterator steps, parser and scope stack", "why_tests_cant": "Overflow depends on the sizes of texts and the number of calls; tests use small ones, and a release build wraps silently", "anchors": ["src/workspace.rs: Workspace::add_buffer, open_buffer, close_current_buffer, previous_buffer, next_buffer", "src/buffer/mod.rs: Buffer::data, line_count, search", "src/util/line_iterator.rs: LineIterator::next", "src/buffer/token/token_iterator.rs: TokenIterator"]}
{"id": "C75", "title": "Everything a token iterator ever returns", "statement": "Take any text, any parser and any scope stack. Creating a token iterator fails exactly if the first line is not parsed. Otherwise every call of next, also after it has returned None, returns the next item of a fixed list: for each line that is parsed, a newline (except before the first line) and the pieces of the line between the events beyond the last cut, each with the scope from before the event that ends it, its line and the number of clusters of the pieces before it; None, with a scope error recorded, in place of a piece whose event cannot be applied; None, with a parsing error recorded, in place of a line that is not parsed and the newline before it; and None for ever after the last item. A call panics exactly if an event is not at a char boundary of the line. The error recorded is always the last one.", "quantifier": "every text, number of calls, parser (state, events, failures), scope stack, grapheme segmentation", "why_tests_cant": "What is returned depends on the whole history of the parser and the scope stack; tests use one syntax, a few texts and no parser that fails", "anchors": ["src/buffer/token/token_iterator.rs: TokenIterator::new, next", "src/buffer/token/token_set.rs: TokenSet::iter", "src/util/line_iterator.rs: LineIterator::next"]}
{"id": "C76", "title": "No program panics unless it keeps a borrow", "statement": "A program has any number of buffers, cursors and storages. It makes cursors and storages of its own, assigns cursors from one buffer to another, and reads and writes any storage it has a handle on; its change callbacks do the same, each call depending on what the earlier ones returned. As long as the program itself keeps no borrow of a storage, no call panics. If it keeps borrows, a call that needs none of the borrowed storages does not panic, and reading, inserting, deleting, moving to a position and borrowing panic exactly if a kept borrow forbids them. No call leaves a borrow behind, and every storage always holds valid text.", "quantifier": "every program (number of buffers, cursors, storages; sequence of calls), every family of callbacks, every set of kept borrows, allocator behaviour, disk and grapheme classification with LF as such", "why_tests_cant": "Borrow conflicts depend on which handles a callback captured and where cursors were assigned; tests use one buffer and a callback that only counts", "anchors": ["src/buffer/mod.rs: Buffer, change_callback", "src/buffer/cursor.rs: Cursor::data, Cursor::new, move_to", "src/buffer/operation/insert.rs, delete.rs, replace.rs, group.rs"]}
{"id": "C77", "title": "Buffers do not share their text", "statement": "In every program no two buffers have the same storage, whatever cursors were assigned to them. A call leaves every buffer (text, cursor, history, path, callback) as it was, but the buffer the call is made on and those into whose storage the caller, or the callback that is run, writes through a handle it captured.", "quantifier": "every program with any number of buffers, every call, every family of callbacks, every other buffer", "why_tests_cant": "Storages are shared by reference and handles can be copied anywhere; a test can only look at a few of the resulting aliasings", "anchors": ["src/buffer/mod.rs: Buffer, change_callback", "src/buffer/cursor.rs: Cursor::data, Cursor::new, move_to", "src/buffer/operation/insert.rs, delete.rs, replace.rs, group.rs"]}
{"id": "C78", "title": "Several buffers are several separate buffers", "statement": "If callbacks only look, and the program assigns no cursors to buffers, writes no storage through a handle and keeps no borrow, then all calls return what the same calls on a list of separate buffers (text as a plain value) return, with the same effects on the disk. Each buffer is one that calls on it alone, and changes of the disk, can produce.", "quantifier": "every such program with any number of buffers, every disk, every family of looking callbacks", "why_tests_cant": "The equivalence ranges over interleavings of calls on several buffers that share one disk", "anchors": ["src/buffer/mod.rs: Buffer, change_callback", "src/buffer/cursor.rs: Cursor::data, Cursor::new, move_to", "src/buffer/operation/insert.rs, delete.rs, replace.rs, group.rs"]}
{"id": "C79", "title": "Whatever a callback does, each edit is followed by exactly one call of it", "statement": "A change callback may read and write any storage it has a handle on, its own buffer's among them. A call on a buffer changes the storages by the edits the call stands for (an insert, a removed range, a new text; for undo and redo those of the operation, member by member for a group, in reverse order for undo) and by nothing else but the callback. Right after each edit the callback is called exactly once, with the position of the edit, and finds the texts as that edit left them; the edits that follow work on the texts as the callback left them. Everything else about the buffer (its id, path, cursor, history, open group, syntax, its callback), the answer and the disk are what the same call makes of a buffer nobody else touches; the cursor stays on the storage it is on unless the text is put into a new one.", "quantifier": "every program with any number of buffers, every call on a buffer, every callback, every history", "why_tests_cant": "What a callback writes changes what the rest of the operation works on; only tests with that very callback and that very history would see an order or a count that is wrong", "anchors": ["src/buffer/mod.rs: Buffer, change_callback, undo, redo, replace, reload", "src/buffer/cursor.rs: Cursor::data, move_*", "src/buffer/operation/insert.rs, delete.rs, replace.rs, group.rs"]}
{"id": "C80", "title": "Cursors and handles work on the text of their storage at that moment", "statement": "In a program with many buffers every storage is, at every moment, a gap buffer that a sequence of calls on it alone produces, so that C01-C15 apply to it. A cursor moves in the text its storage has at that moment, whoever wrote it, and moving it changes nothing else. A call through a handle does and returns what it does on that gap buffer. A storage changes only by calls on the buffer it belongs to, callbacks that write there and writes through handles, and a cursor of the program only by calls on it.", "quantifier": "every program with any number of buffers, cursors and storages, every call, every callback", "why_tests_cant": "Which cursors and buffers share a storage is a matter of the whole history of clones, assignments and replacements", "anchors": ["src/buffer/mod.rs: Buffer, change_callback, undo, redo, replace, reload", "src/buffer/cursor.rs: Cursor::data, move_*", "src/buffer/operation/insert.rs, delete.rs, replace.rs, group.rs"]}
{"id": "C81", "title": "A save stopped at any moment", "statement": "While save() runs, at every moment and however the operating system splits the write, the disk differs from what other programs left only in the one file that the path led to when it was opened, and that file holds a beginning of the text's bytes; if the program dies there, the disk is the old one, or reading the file gives the beginning of the text that was written, or fails because it ends inside a character. When save() returns Ok the whole text is there. Saving in many small writes ends like saving in one.", "quantifier": "every text, path and disk; every sequence of answers of the operating system (creation refused or not, writes of any size, interruptions, errors), every crash point in it, and everything other programs do in between to other files, directories and links", "why_tests_cant": "A test sees the disk before and after a save, with the writes the operating system happened to do; it cannot stop a save at every byte or schedule other programs between the writes.", "anchors": ["src/buffer/mod.rs: Buffer::save", "src/buffer/mod.rs: Buffer::from_file"]}
{"id": "C82", "title": "Two programs saving one file", "statement": "When two programs save to the same file at the same time and both saves return Ok, the file holds one of the two texts.", "quantifier": "every two texts, all names of the file, every way the steps of the two saves alternate and every split of their writes", "why_tests_cant": "The outcome depends on how the writes of two processes alternate; a test sees one schedule.", "anchors": ["src/buffer/mod.rs: Buffer::save"]}
{"id": "C83", "title": "Edits compose", "statement": "Inserting at p and then at the end of what was inserted is inserting the joined text; inserting and deleting the inserted range, or deleting a range and inserting what was read there, changes nothing; what was inserted can be read back; a range can be deleted in two parts; edits at different places give the same text in either order once the later position is moved by the earlier edit; and everything elsewhere reads as before, in its place before the edit and at moved positions behind it.", "quantifier": "every text, inserted text and position; texts made of clusters that do not merge with their neighbours (single chars, letters with marks, flags), any class table, any behaviour of the allocators", "why_tests_cant": "The laws relate two sequences of calls for all texts and positions, across line ends and gap positions; tests compare a few texts.", "anchors": ["src/buffer/gap_buffer.rs: GapBuffer::insert", "src/buffer/gap_buffer.rs: GapBuffer::delete", "src/buffer/gap_buffer.rs: GapBuffer::read", "src/buffer/gap_buffer.rs: GapBuffer::in_bounds"]}
{"id": "C84", "title": "Calls that fail", "statement": "A call returns an error exactly when it has a reason to: open_buffer when no buffer is open for the file and it cannot be read as text, save when the buffer has no path or the file cannot be created or a write fails, reload when the buffer has no path (MissingPath) or the file cannot be read as text, update_current_syntax when nothing is open (EmptyWorkspace); no other call fails. A call that fails leaves the workspace, all its buffers and the disk as they were, but for the file a save writes to, and the session goes on as if the call had not been made.", "quantifier": "every session on a workspace, every point in it, every call, every disk and every answer of the operating system to a save", "why_tests_cant": "An error can come at any point of any session; a test sees a few, and compares a few fields afterwards.", "anchors": ["src/workspace.rs: Workspace::open_buffer", "src/workspace.rs: Workspace::update_current_syntax", "src/buffer/mod.rs: Buffer::save", "src/buffer/mod.rs: Buffer::reload", "src/errors.rs: ErrorKind"]}
{"id": "C85", "title": "Saves and power failures", "statement": "Once a save has returned Ok, the file holds the saved text after a power failure too.", "quantifier": "every path and text, every way the operating system splits the writes, every choice of which files it takes to the device and when, and every moment at which the power fails", "why_tests_cant": "When written data reaches the device is up to the operating system, and a test cannot cut the power at every moment.", "anchors": ["src/buffer/mod.rs: Buffer::save"]}
{"id": "C86", "title": "Files with several names", "statement": "Whatever names a file has (relative names, symbolic links, hard links), it is open in at most one buffer of a workspace filled through open_buffer, so saving one buffer never overwrites the file of another. A save that succeeds shows under all names of the file and changes no other file; in everything else hard links make no difference to a session.", "quantifier": "every disk with any hard and symbolic links, every session on a workspace, every outcome of each save, and changes of the disk by others between the calls", "why_tests_cant": "The claim ranges over all directory structures and histories; tests open a few files without links.", "anchors": ["src/workspace.rs: Workspace::open_buffer", "src/buffer/mod.rs: Buffer::from_file", "src/buffer/mod.rs: Buffer::save"]}
{"id": "C87", "title": "Nothing before the announced places changes", "statement": "While a change callback is set, whatever is called, every position that is at or before all places announced meanwhile exists afterwards exactly if it existed before, and what is read between two such positions is the same. So a cache of what precedes the smallest announced place stays valid, to the column.", "quantifier": "every buffer any calls produce and every sequence of further calls, undo and redo of groups and failed or clamped ranges included, whose input is made of simple clusters (single characters, marked letters, flags); every class table", "why_tests_cant": "The announcements of all undo and redo histories have to be compared with the text at every position.", "anchors": ["src/buffer/operation/insert.rs: run, reverse", "src/buffer/operation/delete.rs: run, reverse", "src/buffer/operation/replace.rs: replace_content", "src/buffer/operation/group.rs: run, reverse"]}
{"id": "C88", "title": "Highlighting before the announced line stays valid", "statement": "While a change callback is set, whatever is called, highlighting the text afterwards returns, for all lines before the smallest announced line, exactly what it returned before: the same tokens with the same values, scopes and positions, the same errors, in the same calls of next. So a highlighter may keep everything before the announced line.", "quantifier": "every buffer any calls produce, every sequence of further calls (undo and redo of groups, reloads, failed and clamped edits included), every text, parser (states, events, failures), scope stack and grapheme segmentation", "why_tests_cant": "A highlighter's state depends on all earlier lines; the announcements of all histories have to be compared with all tokens of both texts for every parser.", "anchors": ["src/buffer/token/token_iterator.rs: TokenIterator::new, next", "src/buffer/operation/insert.rs: run, reverse", "src/buffer/operation/delete.rs: run, reverse", "src/buffer/operation/replace.rs: replace_content"]}
{"id": "C89", "title": "Loading a file while it changes", "statement": "from_file, open_buffer and reload, when they succeed, give a text that the file held at one moment of the call: what was there before another program's save of the file, or what it saved, and not something in between; in whatever pieces the operating system hands out the file. (Expected false while the file is rewritten: the file is read piece by piece without a lock. True if others leave the file alone or only add to its end; the exact set of texts that can be loaded during a save is stated.)", "quantifier": "every path, disk, file content and saved text; every sequence of answers of the operating system to the load and to the save (pieces of any size, interruptions, errors), every way their steps can alternate, everything other programs do to the disk in between", "why_tests_cant": "A test sees one schedule of two programs, and a short file is read in one piece.", "anchors": ["src/buffer/mod.rs: from_file, reload, save", "src/workspace.rs: open_buffer"]}
{"id": "C90", "title": "A change callback that panics", "statement": "If the change callback panics during a call and the program catches the panic, the buffer can still be used as before: no later call panics, the text is valid UTF-8 and is the one before the call or the one after it, the edit can be undone, and modified() tells whether the text differs from the file. (Expected false: the callback is called before the edit enters the history, so the edit is in the text but neither in undo nor in modified; a group is undone or redone only in part.)", "quantifier": "every buffer, every call and every number of times the callback returns before it panics, every history of calls with caught panics, every text, allocator and file", "why_tests_cant": "Where the panic strikes inside a call depends on the callback, and its damage shows only in later calls.", "anchors": ["src/buffer/operation/mod.rs: Operation", "src/buffer/operation/insert.rs: run, reverse, insert", "src/buffer/operation/delete.rs: run, reverse, delete, delete_range", "src/buffer/operation/replace.rs: run, reverse, replace", "src/buffer/operation/group.rs: run, reverse", "src/buffer/mod.rs: undo, redo, reload, change_callback"]}
{"id": "C91", "title": "Loading a file that others replace by renaming", "statement": "If other programs replace a file by renaming a new one over it (as programs do that save atomically), then loading it with from_file or reload gives one whole version of the file: what the path read as at one moment of the call, however many reads the load takes and however often the file is replaced; and the load ends.", "quantifier": "every path, disk and file contents, every number, size and interruption of reads, every interleaving with any number of renamings", "why_tests_cant": "A test cannot place renamings between all the reads of one load.", "anchors": ["src/buffer/mod.rs: from_file, reload"]}
{"id": "C92", "title": "Saving a file that others replace by renaming", "statement": "A save that returned Ok is in the file, also if other programs replace the file by renaming during the save; at no moment does the file hold a mixture. (Expected false: save writes into the file it has opened, and if that is replaced before the save is over, the saved text is lost although Ok was returned.)", "quantifier": "every path, disk, text, every number, size and interruption of writes, every interleaving with any number of renamings", "why_tests_cant": "The loss needs a renaming between the opening and the end of the writing, which a test cannot place.", "anchors": ["src/buffer/mod.rs: save"]}
{"id": "C93", "title": "Opening and reloading while others replace files by renaming", "statement": "If other programs replace files only by renaming new ones over them, from_file, reload and open_buffer return what they would have returned all at once at one moment of the call (or an error that the operating system reported, and then nothing has changed); they end and never panic; every call of a session does to the workspace what the same call does where nobody interferes; only saves change the disk; a save that succeeds leaves the buffer unmodified and, unless the file was replaced after it was opened, its text in the file, and one that fails leaves the buffer as it was; and a workspace used in this way keeps all it keeps when nobody changes the disk during a call: no path is open twice, no file is open under two paths that lead to the same place, every open buffer's file exists.", "quantifier": "every workspace and disk that sessions of any length lead to, every path, every number, size and interruption of reads and writes, every interleaving with any number of renamings, every change between the calls which removes no file and changes no link", "why_tests_cant": "A test cannot place renamings between the asking, the reads and the canonicalizing of one call.", "anchors": ["src/workspace.rs: open_buffer, add_buffer", "src/buffer/mod.rs: from_file, reload, save"]}
{"id": "C94", "title": "Several programs that use one disk in turn", "statement": "If several programs with workspaces of their own use the same files in turn, none of them panics, each of them sees a session of its own calls; what one of them saved stays in the file until somebody writes there, and is what any of them then gets by reloading the file or by opening it where it was not open; and a save never overwrites what another program saved in the meantime and this one has not loaded. (Expected false in the last part: save does not look at the file.)", "quantifier": "any number of programs, every history of their calls in any order, every text, path, disk and set of links", "why_tests_cant": "A test runs one or two fixed histories of one workspace, not every interleaving of several.", "anchors": ["src/workspace.rs: open_buffer", "src/buffer/mod.rs: from_file, save, reload, modified"]}
{"id": "C95", "title": "How many bytes an edit moves", "statement": "An edit moves only the bytes of the text between the place of the last edit and its own; only an insert that does not fit moves more, at most twice the text. Reads, and edits at positions that are not there and that fit, move nothing. So typing at one place, however long, moves the bytes behind that place at most twice for each reallocation, of which there are logarithmically many, and appending moves none at all.", "quantifier": "every buffer and every history of calls, every text, position and range, every allocator (growing as Vec does, for typing)", "why_tests_cant": "A test can time some edits of one text; the claim is about the number of steps for every text and history.", "anchors": ["src/buffer/gap_buffer.rs: insert, delete, move_gap"]}
{"id": "C96", "title": "Which syntax definition a buffer gets, and when there is none", "statement": "Creating a workspace fails exactly when the folder of syntax definitions cannot be loaded or the path cannot be resolved, with different errors; otherwise the workspace is empty, at the resolved path, and its set is the defaults followed by the user's definitions. A buffer that is added, opened or updated gets the last definition of the set for its file's extension (or name, if it has no extension), so a user's before a default one, and plain text if there is none. No such call panics, whatever set is assigned to the public field.", "quantifier": "every set of definitions and every way to compare extensions, every folder and path, every session of calls and of assignments to the set, every buffer", "why_tests_cant": "A test creates a workspace with one folder and opens a few files; the claim is about every set, also ones assigned later, and every session.", "anchors": ["src/workspace.rs: Workspace::new, add_buffer, open_buffer, update_current_syntax, syntax_set", "src/errors.rs: SyntaxLoadingError, Io"]}
{"id": "C97", "title": "Power failures in the middle of a file", "statement": "Whenever the power fails during or after a save, the file at the path holds its old bytes or a beginning of the new ones, also if the operating system takes length and bytes of files to the device separately, in any pieces and any order. Other files are as they were seen before or as they were on the device.", "quantifier": "every path, text and disk, every way the operating system splits the writes, every sequence of pieces it takes to the device and when, and every moment at which the power fails", "why_tests_cant": "Which bytes reach the device when is up to the operating system; a test cannot cut the power at every moment nor choose the pieces.", "anchors": ["src/buffer/mod.rs: Buffer::save, Buffer::from_file"]}
{"id": "C98", "title": "What the undo history keeps in memory", "statement": "The undo history of a buffer keeps exactly what edits brought in and took out (an insert its text, a deletion what it removes, a replace or reload both texts), at most what the call was given and the text it found. Undo, redo, movements, saves, failed calls and replaces that change nothing add nothing; undo and redo free nothing either, except that an open group is gone once it is undone. An edit outside a group, or the end of a group with edits, frees what could be redone. There is no other limit.", "quantifier": "every text, segmentation, buffer and session of calls, any fixed memory per operation; the last sentence: for every number there is a session", "why_tests_cant": "Memory adds up over whole histories of edits, undos and groups; a test measures one of them.", "anchors": ["src/buffer/operation/history.rs: History::add, previous, next", "src/buffer/operation/mod.rs: clone_operation", "src/buffer/operation/insert.rs, delete.rs, replace.rs, group.rs: the fields of the operations", "src/buffer/mod.rs: Buffer::undo, redo, save, reload"]}
{"id": "C99", "title": "A workspace keeps the storages of its buffers", "statement": "Buffers keep their texts in storages that cursors, callbacks and callers may hold handles on. Opening, adding, closing, selecting and assigning to the workspace's fields move the very same buffers about (their storage, cursor, history, open group and callback with them) in the order the documentation gives; they write to no existing storage and not to the disk, and never panic, even while the program keeps borrows. Other calls panic only if a storage they need is kept borrowed. No two buffers, open or not, share a storage, and a call leaves every open buffer as it is except the ones it is about. If callbacks only look and edits go through buffers, the workspace returns and leaves exactly what a list of separate buffers does.", "quantifier": "every program with a workspace, any number of buffers, cursors and kept borrows, every disk and set of syntaxes, any callbacks, every session of calls", "why_tests_cant": "Aliasing faults show only for particular combinations of handles, callbacks, borrows and selections; a test tries a few.", "anchors": ["src/workspace.rs: Workspace::new, add_buffer, open_buffer, close_current_buffer, previous_buffer, next_buffer, current_buffer_tokens, update_current_syntax, select_buffer, select_buffer_by_path", "src/buffer/mod.rs: Buffer::new, from_file (Rc<RefCell<GapBuffer>>)", "src/buffer/cursor.rs: Cursor::new"]}
{"id": "C100", "title": "The text of a closed buffer is freed", "statement": "A storage is kept in memory by the buffers, cursors, change callbacks and kept borrows that have a handle on it, and freed with the last of them. No call of the workspace, of a buffer or of a cursor brings back a storage that nothing holds, reads or writes it, now or ever after. Closing the current buffer lets go of everything it held: what is still held is exactly what the other buffers, the program's cursors and its kept borrows hold. A program that clones no cursors, keeps no borrows and installs no callbacks has in memory exactly the texts of its buffers, and one more, in the slot of the current buffer, while one is current, however many buffers it opened, closed, selected and reloaded before; and the old text of a buffer it closes, drops, reloads or replaces is freed. In any program the buffer in that slot holds its own storage only and never shares it with another buffer. If closures get handles only on what the program can get at, then nothing the program can get at ever has a handle on the storage in the slot, and nothing else is in memory than that one and what the program can get at.", "quantifier": "every program with a workspace, any number of buffers, cursors and kept borrows, any callbacks, every disk, every session of calls and every continuation of it", "why_tests_cant": "A leak, or a handle that outlives its buffer, shows in memory over long sessions and not in what calls return.", "anchors": ["src/workspace.rs: Workspace::add_buffer, open_buffer, close_current_buffer, select_buffer", "src/buffer/mod.rs: Buffer (data, cursor, change_callback), reload", "src/buffer/cursor.rs: Cursor (data: Rc<RefCell<GapBuffer>>)"]}
