{"id": "C01", "title": "Buffer edits are exact splices", "statement": "Buffer::insert(start,text) turns the text a++b with |a|=start into a++text++b; remove(start,end) deletes exactly the characters in [start,end) and returns end-start; truncate(n) keeps exactly the first n characters. They panic exactly when the range does not lie inside the text (an empty insertion never panics).", "quantifier": "every buffer (any text, any undo/redo history), every start, end and inserted text", "why_tests_cant": "infinitely many texts, offsets and texts to insert; tests fix a handful", "anchors": ["src/buffer.rs:insert", "src/buffer.rs:remove", "src/buffer.rs:truncate", "src/buffer.rs:insert_raw", "src/buffer.rs:remove_raw"]}
{"id": "C02", "title": "One undo reverts exactly the last edit or the last closed edit group", "statement": "After any edit (insert/remove/truncate) on any buffer, one undo() returns true and gives back the text from before the edit. After start_undo_group, any sequence of edits and properly closed nested groups containing an edit, end_undo_group, one undo() gives back the text from before the group, and does not go further back.", "quantifier": "every buffer history, every edit, every properly nested group of edits of any depth and length", "why_tests_cant": "unbounded nesting and sequences; tests try depth two with three edits", "anchors": ["src/buffer.rs:undo", "src/buffer.rs:start_undo_group", "src/buffer.rs:end_undo_group"]}
{"id": "C03", "title": "Redo restores what undo took back", "statement": "After any number of undo() calls, repeating redo() until it returns false gives the text repeating redo() would have given before those undos (in particular the latest text if nothing had been undone). undo() followed by redo() leaves the text unchanged.", "quantifier": "every reachable buffer, every number of undos and redos in any interleaving", "why_tests_cant": "unbounded interleavings of undo and redo over unbounded histories", "anchors": ["src/buffer.rs:undo", "src/buffer.rs:redo"]}
{"id": "C04", "title": "revert() restores the original text", "statement": "For every sequence of buffer operations (edits, groups opened and closed in any order, undo, redo), revert() terminates, does not panic, and leaves the text the buffer had when it was created or when its actions were last cleared; undo and redo never panic.", "quantifier": "every initial text and every finite sequence of public buffer operations", "why_tests_cant": "needs all operation histories; termination needs an argument, not runs", "anchors": ["src/buffer.rs:revert", "src/buffer.rs:undo", "src/buffer.rs:redo", "src/buffer.rs:clear_actions"]}
{"id": "C05", "title": "A new edit forgets the redo history", "statement": "After insert, remove or truncate, redo() returns false and changes nothing, whatever had been undone before.", "quantifier": "every reachable buffer and every edit", "why_tests_cant": "universally quantified over histories", "anchors": ["src/buffer.rs:push_action", "src/buffer.rs:redo"]}
{"id": "C06", "title": "Search predicates of a buffer are exact", "statement": "starts_with(o) holds iff o is non-empty and the text is o followed by at least one more character; contains(p) holds iff p is non-empty and occurs as a contiguous block; last_arg is the last maximal run of non-space characters, None iff there is none; equality of buffers is equality of texts, whatever their undo histories.", "quantifier": "every pair of texts", "why_tests_cant": "all pairs of texts; off-by-one cases at the ends", "anchors": ["src/buffer.rs:starts_with", "src/buffer.rs:contains", "src/buffer.rs:last_arg", "src/buffer.rs:PartialEq"]}
{"id": "C07", "title": "Conversions between buffers, strings, lines and bytes are lossless", "statement": "Buffer::from(s) converted back to String gives s; num_bytes() is the length of as_bytes(); decoding as_bytes() as UTF-8 gives the text back; lines() are the pieces between newlines and joining them with newlines gives the text.", "quantifier": "every text of Unicode scalar values", "why_tests_cant": "every Unicode scalar value and every text length", "anchors": ["src/buffer.rs:From<String>", "src/buffer.rs:num_bytes", "src/buffer.rs:as_bytes", "src/buffer.rs:lines", "src/buffer.rs:range_width"]}
{"id": "C08", "title": "History::push keeps the newest entries in order", "statement": "With max_buffers_size = m and no history file, after pushing any sequence of lines onto an empty history, the entries are exactly the last m of the pushed lines after dropping every line equal to the line kept just before it (nothing is dropped when append_duplicate_entries is set); len() never exceeds m after an accepted push; entries already kept are never modified or reordered.", "quantifier": "every sequence of pushed lines, every limit m, both settings of append_duplicate_entries", "why_tests_cant": "unbounded push sequences and limits", "anchors": ["src/history.rs:push", "src/history.rs:set_max_buffers_size"]}
{"id": "C09", "title": "Incremental append puts every accepted line in the history file", "statement": "With inc_append set and a writable history file, after push(line) returns, the history file ends with that line (and nothing previously in the file is lost when load_duplicates is on).", "quantifier": "every push history, every file content, every setting of share/load_duplicates", "why_tests_cant": "the loss shows up only at particular positions in a long history", "anchors": ["src/history.rs:push", "src/history.rs:deduplicate_history_file"]}
{"id": "C10", "title": "Committing and reloading a history is lossless", "statement": "commit_to_file followed by loading that file into a history gives the same lines in the same order (the newest max_file_size of them).", "quantifier": "every list of lines and every max_file_size", "why_tests_cant": "every text is a possible line; which texts survive is a universal question", "anchors": ["src/history.rs:commit_to_file", "src/history.rs:overwrite_history", "src/history.rs:load_history", "src/history.rs:set_file_name_and_load_history"]}
{"id": "C11", "title": "Loading a history file", "statement": "Loading reads the lines of the file in order up to the first line that is not valid UTF-8, skips lines starting with '#', keeps the newest max_file_size entries, and without load_duplicates keeps for each distinct line only its last occurrence, in file order. With append it adds after the existing entries, otherwise it replaces them.", "quantifier": "every file content (any bytes), every setting and every existing history", "why_tests_cant": "every byte sequence is a possible file", "anchors": ["src/history.rs:load_history_file_test", "src/history.rs:load_history_file", "src/history.rs:truncate"]}
{"id": "C12", "title": "Compaction of a shared history does not lose the line being pushed", "statement": "With share, inc_append and no load_duplicates, after push(line) the line is the newest entry of the in-memory history and of the history file.", "quantifier": "every interleaving of pushes by several processes sharing the file", "why_tests_cant": "depends on the position in a 30-push cycle and on what other processes wrote", "anchors": ["src/history.rs:push", "src/history.rs:load_history", "src/history.rs:overwrite_history"]}
{"id": "C13", "title": "Compaction of an unshared history file", "statement": "When push compacts an unshared file, the file holds, in order, the last occurrence of each distinct line among its newest max_file_size non-comment lines, and the in-memory history is only changed by the pushed line.", "quantifier": "every file content and every max_file_size", "why_tests_cant": "every file content", "anchors": ["src/history.rs:deduplicate_history_file", "src/history.rs:push"]}
{"id": "C14", "title": "A crash while writing the history file", "statement": "If the process dies at any point while the history file is rewritten, the file afterwards holds either its old content or its full new content.", "quantifier": "every crash point, every old and new content", "why_tests_cant": "crash points cannot be enumerated by unit tests", "anchors": ["src/history.rs:overwrite_history", "src/history.rs:deduplicate_history_file"]}
{"id": "C15", "title": "History lookups are exact", "statement": "search_index(t) lists, in increasing order and without repetition, exactly the indices of entries containing t (none for an empty t). get_history_subset(t) lists exactly the indices of entries strictly containing t: first those that do not start with t, then those that do, each group increasing. get_newest_match(pos,t) is the greatest index below pos whose entry strictly extends t, None iff there is none.", "quantifier": "every history, every search text, every position", "why_tests_cant": "all histories and search texts", "anchors": ["src/history.rs:search_index", "src/history.rs:get_history_subset", "src/history.rs:get_newest_match"]}
{"id": "C16", "title": "remove_duplicates removes exactly the entries equal to its argument", "statement": "After remove_duplicates(s) the history holds exactly the previous entries whose text differs from s, in the same order.", "quantifier": "every history and every s", "why_tests_cant": "every entry text", "anchors": ["src/history.rs:remove_duplicates"]}
{"id": "C17", "title": "Default word boundaries", "statement": "get_buffer_words returns non-empty, strictly increasing, non-overlapping ranges inside the text; every word starts on a character that is neither a space nor a backslash; a space inside a word is always directly preceded by a backslash; a word is followed by the end of the text or by a space not directly preceded by a backslash; every character outside all words is a space or a backslash.", "quantifier": "every text", "why_tests_cant": "all texts; escapes at every position", "anchors": ["src/context.rs:get_buffer_words"]}
{"id": "C18", "title": "Cursor classification relative to words", "statement": "For increasing non-overlapping words CursorPosition::get says OnWordLeftEdge(i)/OnWordRightEdge(i)/InWord(i) iff the cursor is at the start / end / strictly inside of word i, and InSpace(l,r) with l and r the nearest words on either side; every index returned is a valid word index for any list of words whatsoever.", "quantifier": "every word list and every cursor", "why_tests_cant": "unbounded word lists; the index validity must hold even for ill-formed word lists from user supplied dividers", "anchors": ["src/editor.rs:CursorPosition::get", "src/editor.rs:get_words_and_cursor_position"]}
{"id": "C19", "title": "Common prefix used by completion is the longest one", "statement": "For two or more candidates the inserted common prefix is a prefix of all of them and no longer common prefix exists; nothing is inserted iff they have no common first character.", "quantifier": "every list of candidates", "why_tests_cant": "all candidate lists", "anchors": ["src/util.rs:find_longest_common_prefix", "src/editor.rs:complete"]}
{"id": "C20", "title": "Prompt width ignores escape sequences", "statement": "The width used for a prompt is the width of its last line with escape sequences removed: the removal keeps every character outside escape sequences in order, drops complete CSI and OSC sequences entirely, never leaves an ESC, is the identity on texts without ESC, and is idempotent.", "quantifier": "every prompt string", "why_tests_cant": "every string, every nesting of escape sequences", "anchors": ["src/util.rs:remove_codes", "src/util.rs:handle_prompt", "src/util.rs:last_prompt_line_width"]}
{"id": "C21", "title": "The cursor stays inside the line", "statement": "After every key handled by the Emacs or Vi keymap without an error, cursor() <= number of characters of the current buffer, and in Vi normal mode with a non-empty buffer cursor() < number of characters.", "quantifier": "every key sequence, every initial buffer and history, every terminal width", "why_tests_cant": "unbounded key sequences over an unbounded state space", "anchors": ["src/editor.rs:display_impl", "src/keymap/mod.rs:handle_key", "src/keymap/vi.rs:handle_key_core", "src/keymap/emacs.rs:handle_key_core"]}
{"id": "C22", "title": "Emacs editing behaves like a two-list line editor", "statement": "For every sequence of insertion, movement, deletion, kill and undo keys, the line and cursor equal those of the obvious pure editor (text before cursor, text after cursor, stack of earlier texts).", "quantifier": "every sequence of those keys and every initial line", "why_tests_cant": "unbounded key sequences", "anchors": ["src/keymap/emacs.rs:handle_key_core", "src/editor.rs:insert_chars_after_cursor", "src/editor.rs:delete_before_cursor", "src/editor.rs:delete_after_cursor", "src/editor.rs:delete_all_before_cursor", "src/editor.rs:delete_all_after_cursor", "src/editor.rs:move_cursor_left", "src/editor.rs:move_cursor_right", "src/editor.rs:delete_word_before_cursor", "src/editor.rs:undo"]}
{"id": "C23", "title": "Editing recalled lines never changes the stored history", "statement": "For every key sequence handled by the Emacs or Vi keymap (with share off), the entries of the history after the keys are those from before, even if recalled entries were edited, undone or executed.", "quantifier": "every key sequence and history", "why_tests_cant": "unbounded sequences mixing navigation, editing, search, completion and undo", "anchors": ["src/editor.rs:cur_buf_mut", "src/editor.rs:move_up", "src/editor.rs:move_down", "src/editor.rs:move_to_start_of_history"]}
{"id": "C24", "title": "Browsing history keeps the line being typed", "statement": "Moving up and down through history with any keys that only navigate, and editing recalled entries, leaves the unfinished new line untouched: on return to the end of history the same text is shown.", "quantifier": "every line, history and navigation sequence", "why_tests_cant": "unbounded navigation sequences", "anchors": ["src/editor.rs:move_up", "src/editor.rs:move_down", "src/editor.rs:move_to_end_of_history", "src/editor.rs:cur_buf"]}
{"id": "C25", "title": "Emacs sessions never panic", "statement": "No key sequence makes the editor panic under the Emacs keymap.", "quantifier": "every key sequence, history, terminal width, completer", "why_tests_cant": "a crash needs a specific combination of history text, search text and encoding", "anchors": ["src/editor.rs:display_impl", "src/editor.rs:search", "src/editor.rs:complete", "src/keymap/emacs.rs:handle_key_core"]}
{"id": "C26", "title": "Vi sessions never panic", "statement": "No key sequence makes the editor panic under the Vi keymap.", "quantifier": "every key sequence, history, terminal width", "why_tests_cant": "crashes hide behind particular mode/buffer combinations", "anchors": ["src/keymap/vi.rs:handle_key_core", "src/editor.rs:delete_until_inclusive"]}
{"id": "C27", "title": "Enter returns the line unless it continues", "statement": "Enter finishes the line iff no completion list is shown and (outside search) the character before the cursor is not a backslash; the line returned is exactly the current buffer. After a backslash Enter inserts a newline at the cursor; with a completion list shown it only dismisses the list.", "quantifier": "every editor state", "why_tests_cant": "all states", "anchors": ["src/editor.rs:handle_newline", "src/keymap/mod.rs:handle_key", "src/context.rs:handle_keys"]}
{"id": "C28", "title": "Ctrl-C and Ctrl-D", "statement": "Ctrl-C always ends the session with an Interrupted error; Ctrl-D on an empty line ends it with UnexpectedEof; Ctrl-D on a non-empty line never ends it.", "quantifier": "every keymap and every editor state", "why_tests_cant": "all states and keymaps", "anchors": ["src/keymap/mod.rs:handle_key"]}
{"id": "C29", "title": "Tab completion replaces the word before the cursor", "statement": "With exactly one distinct candidate Tab replaces the part of the word before the cursor by it and touches nothing else; with several, it inserts their longest common prefix if that extends the word, else shows the list; with a list shown, successive Tabs select the candidates cyclically in sorted order, each replacing the previous one.", "quantifier": "every line, cursor, candidate list and number of Tabs", "why_tests_cant": "unbounded candidate lists and cycles", "anchors": ["src/editor.rs:complete", "src/editor.rs:delete_word_before_cursor", "src/complete.rs:BasicCompleter"]}
{"id": "C30", "title": "Autosuggestion is the newest history line extending the input", "statement": "While typing a new line the suggestion is the newest history entry that strictly extends it; accepting it makes the line equal to that entry with the cursor at its end and leaves undo able to take it back.", "quantifier": "every line and history", "why_tests_cant": "all histories", "anchors": ["src/editor.rs:current_autosuggestion", "src/editor.rs:accept_autosuggestion", "src/history.rs:get_newest_match"]}
{"id": "C31", "title": "Incremental search visits every match", "statement": "Starting a reverse (forward) search selects the newest (oldest) entry containing the text; each further step moves to the next older (newer) match cyclically, so k steps over k matches visit each exactly once; Enter makes the line equal to the selected match.", "quantifier": "every history, text and number of steps", "why_tests_cant": "unbounded numbers of matches and steps", "anchors": ["src/editor.rs:search", "src/editor.rs:refresh_search", "src/editor.rs:handle_newline"]}
{"id": "C32", "title": "Alt-. walks back through the last arguments of history", "statement": "Pressing Alt-. n times in a row inserts at the cursor the last argument of the n-th newest entry, replacing the previously inserted one and nothing else.", "quantifier": "every line, cursor, history and n", "why_tests_cant": "all histories and cursor positions", "anchors": ["src/keymap/emacs.rs:handle_last_arg_fetch"]}
{"id": "C33", "title": "Undo without edits changes nothing", "statement": "If the current line has not been edited, undo reports that nothing was undone and leaves the text as it is, also on a line recalled from history.", "quantifier": "every history and position", "why_tests_cant": "all histories", "anchors": ["src/editor.rs:undo", "src/editor.rs:cur_buf_mut"]}
{"id": "C34", "title": "take_exec_buffer does not disturb history", "statement": "take_exec_buffer returns the text of the current buffer and leaves the stored history unchanged.", "quantifier": "every editor state", "why_tests_cant": "all states", "anchors": ["src/editor.rs:take_exec_buffer"]}
{"id": "C35", "title": "Vi counts saturate", "statement": "Typing digits d1..dn in Vi normal mode gives a count equal to min(decimal value, 2^32-1), and combined counts of operator and motion multiply with the same saturation; no count arithmetic overflows.", "quantifier": "every digit string", "why_tests_cant": "unboundedly long digit strings", "anchors": ["src/keymap/vi.rs:handle_key_normal", "src/keymap/vi.rs:handle_key_delete_or_change"]}
{"id": "C36", "title": "A Vi insert session is undone as a unit", "statement": "Everything typed between entering insert mode and Esc is taken back by one u, restoring the text from before.", "quantifier": "every typed text, every prior buffer", "why_tests_cant": "all texts", "anchors": ["src/keymap/vi.rs:handle_key_insert", "src/keymap/vi.rs:set_mode_preserve_last", "src/keymap/vi.rs:pop_mode"]}
{"id": "C37", "title": "Vi word motions land on word boundaries", "statement": "w moves to the next position where a word starts, ge to the previous position where a word ends, e to the next position where a word ends and b to the previous position where a word starts, for keyword and whitespace words, repeated count times.", "quantifier": "every text, cursor and count", "why_tests_cant": "all texts and counts", "anchors": ["src/keymap/vi.rs:vi_move_word", "src/keymap/vi.rs:vi_move_word_end"]}
{"id": "C38", "title": "Vi character searches", "statement": "f/t/F/T with count n move to (or just before/after) the n-th occurrence of the character to the right/left and do not move if there are fewer; ; repeats and , reverses the last one.", "quantifier": "every text, cursor, character and count", "why_tests_cant": "all texts and counts", "anchors": ["src/keymap/vi.rs:find_char", "src/keymap/vi.rs:find_char_rev", "src/keymap/vi.rs:handle_key_move_to_char"]}
{"id": "C39", "title": "Vi repeat terminates", "statement": "The . command always terminates, and repeating a command leaves the editor in normal mode.", "quantifier": "every key sequence", "why_tests_cant": "termination over mutually recursive replays cannot be tested", "anchors": ["src/keymap/vi.rs:repeat", "src/keymap/vi.rs:handle_key_insert"]}
{"id": "C40", "title": "Vi deletions remove exactly the designated span", "statement": "x with count n removes min(n, rest) characters from the cursor; D removes from the cursor to the end; dd empties the line; d with a character motion removes exactly the characters between the cursor and the target.", "quantifier": "every text, cursor and count", "why_tests_cant": "all texts and counts", "anchors": ["src/keymap/vi.rs:handle_key_normal", "src/keymap/vi.rs:pop_mode_after_movement", "src/editor.rs:delete_until", "src/editor.rs:delete_until_inclusive"]}
{"id": "C41", "title": "Esc returns Vi to normal mode", "statement": "After Esc the Vi keymap is in normal mode whatever keys came before.", "quantifier": "every key sequence", "why_tests_cant": "unbounded mode stacks", "anchors": ["src/keymap/vi.rs:handle_key_core", "src/keymap/vi.rs:normal_mode_abort", "src/keymap/vi.rs:pop_mode"]}
{"id": "C42", "title": "Redraw puts the terminal cursor on the logical cursor", "statement": "After a redraw the terminal cursor is at the cell where the character at the logical cursor is drawn, for every prompt, text and terminal width.", "quantifier": "every text, prompt width, terminal width and cursor", "why_tests_cant": "line wrapping interacts with every combination of widths", "anchors": ["src/editor.rs:display_impl"]}
{"id": "C43", "title": "clear() clears the terminal", "statement": "clear() sends the clear-screen sequence to the terminal and then redraws at the top.", "quantifier": "every editor state", "why_tests_cant": "all states", "anchors": ["src/editor.rs:clear"]}
{"id": "C44", "title": "Completion list layout", "statement": "Every candidate is printed exactly once, in order, never more than the computed number of columns per row, and the row count used for cursor placement equals the rows printed.", "quantifier": "every candidate list and terminal width", "why_tests_cant": "all lists and widths", "anchors": ["src/editor.rs:print_completion_list"]}
{"id": "C45", "title": "FilenameCompleter never panics", "statement": "completions(start) never panics.", "quantifier": "every start string, working directory and directory content", "why_tests_cant": "all strings", "anchors": ["src/complete.rs:FilenameCompleter"]}
{"id": "C46", "title": "BasicCompleter returns exactly the matching words", "statement": "completions(s) returns, in order, exactly the registered words that start with s.", "quantifier": "every word list and s", "why_tests_cant": "all word lists", "anchors": ["src/complete.rs:BasicCompleter"]}
{"id": "C47", "title": "In-memory history stays within max_buffers_size", "statement": "At any time after a push or load, len() <= max_buffers_size.", "quantifier": "every sequence of pushes and loads", "why_tests_cant": "all sequences", "anchors": ["src/history.rs:push", "src/history.rs:load_history_file_test", "src/history.rs:truncate"]}
{"id": "C48", "title": "Exactly what committing and reloading a history gives", "statement": "Committing a history and loading the file gives the newest max_file_size entries, each split at its newlines, without one carriage return at the end of each piece and without pieces starting with '#'.", "quantifier": "every list of lines (any Unicode text), both file size limits", "why_tests_cant": "all texts and lengths", "anchors": ["src/history.rs:overwrite_history", "src/history.rs:load_history_file_test"]}
{"id": "C49", "title": "Exactly what a shared compaction does after another process wrote", "statement": "If a compaction is due in share mode and the file does not have the remembered size, then after push the history and the file both hold the last occurrences of the newest max_file_size entries the file had before; the pushed line is added to neither.", "quantifier": "every history, file content, pushed line", "why_tests_cant": "all file contents and states", "anchors": ["src/history.rs:push", "src/history.rs:overwrite_history"]}
{"id": "C50", "title": "A crash while appending loses no earlier entry", "statement": "If the process dies while push appends a line without newline to a file whose last line is complete, what can be loaded afterwards is the earlier entries and at most one more, which is a beginning of the pushed line.", "quantifier": "every file content (any bytes), every line, every chunking of the write, every crash point", "why_tests_cant": "all crash points and byte contents", "anchors": ["src/history.rs:push", "src/history.rs:load_history_file_test"]}
{"id": "C51", "title": "remove_duplicates compares texts without their newlines", "statement": "After remove_duplicates(s) the history holds, in the same order, exactly the previous entries whose text with all newlines deleted differs from s.", "quantifier": "every history and s", "why_tests_cant": "all texts", "anchors": ["src/history.rs:remove_duplicates"]}
{"id": "C52", "title": "The history never exceeds the larger of its two limits", "statement": "No sequence of pushes, loads, commits, file changes by other programs, clears and duplicate removals makes len() exceed max(max_buffers_size, max_file_size) if it did not before.", "quantifier": "every sequence of operations, every file content, every pair of limits", "why_tests_cant": "unbounded operation sequences", "anchors": ["src/history.rs:push", "src/history.rs:truncate"]}
{"id": "C53", "title": "One undo reverts the last edit inside the text, or the last closed group", "statement": "After any edit whose range lies inside the text, one undo() returns true and restores text and undo history from before; the same for a properly closed group none of whose (nested) groups is empty.", "quantifier": "every buffer, every edit in range, every properly nested group of any depth and length", "why_tests_cant": "all histories and nestings", "anchors": ["src/buffer.rs:undo", "src/buffer.rs:start_undo_group"]}
{"id": "C54", "title": "undo and redo are inverse when groups are closed", "statement": "For buffers used only with properly closed, non-empty groups, undo() followed by redo() and redo() followed by undo() give back the same text and the same undo and redo histories.", "quantifier": "every such buffer", "why_tests_cant": "all histories", "anchors": ["src/buffer.rs:undo", "src/buffer.rs:redo"]}
{"id": "C55", "title": "revert() restores the original text when insertions lie inside the text", "statement": "For every sequence of buffer operations whose edits lie inside the text, revert() terminates without panic and leaves the text the buffer had when created or when its actions were last cleared; undo and redo never panic.", "quantifier": "every initial text and operation sequence", "why_tests_cant": "unbounded operation sequences", "anchors": ["src/buffer.rs:revert"]}
{"id": "C56", "title": "A key fails only for a reason the user can see", "statement": "Handling a key under the Emacs or Vi keymap returns an error only if the terminal cannot be written or measured, or the key is Ctrl-C (Interrupted), or the key is Ctrl-D on an empty line (UnexpectedEof).", "quantifier": "every key and editor state", "why_tests_cant": "all states and keys, including replayed Vi commands", "anchors": ["src/keymap/mod.rs:handle_key", "src/editor.rs"]}
{"id": "C57", "title": "Undo on an unedited recalled line blanks it", "statement": "On a line recalled from history and not edited, undo outside a search reports that something was undone and leaves an empty line with the cursor at 0 (corrects C33).", "quantifier": "every history, position and terminal", "why_tests_cant": "all histories", "anchors": ["src/editor.rs:undo", "src/editor.rs:cur_buf_mut"]}
{"id": "C58", "title": "What clear() sends", "statement": "clear() never sends the clear-screen sequence to the terminal: it goes to the internal buffer only, followed there by the redraw that the terminal receives (corrects C43).", "quantifier": "every editor state", "why_tests_cant": "all states and prompts", "anchors": ["src/editor.rs:clear", "src/editor.rs:_display"]}
{"id": "C59", "title": "The completion list fits the terminal", "statement": "If the column width is at most the terminal width, no printed row of the completion list is wider than the terminal.", "quantifier": "every candidate list and terminal width", "why_tests_cant": "all widths and lists", "anchors": ["src/editor.rs:print_completion_list"]}
{"id": "C60", "title": "The terminal width used is never zero", "statement": "A reported width of 0 columns is replaced by 80; any other reported width is used as it is; a failing query stays an error.", "quantifier": "every reported size", "why_tests_cant": "all sizes", "anchors": ["src/util.rs:terminal_width"]}
{"id": "C61", "title": "print_rest writes exactly the rest", "statement": "print_rest(after) writes the UTF-8 encoding of the characters from that position on and returns the number of bytes written.", "quantifier": "every text and position inside it", "why_tests_cant": "all texts with multi-byte characters", "anchors": ["src/buffer.rs:print_rest"]}
{"id": "C62", "title": "Vi deletions by word", "statement": "d with w/W removes from the cursor up to the n-th next word start (to the end of the line if there is none), with b/B from the n-th previous word start to the cursor, and with e/E through the end of the n-th word.", "quantifier": "every text, cursor, pair of counts and keyword class", "why_tests_cant": "all texts, classes and counts", "anchors": ["src/keymap/vi.rs:vi_move_word", "src/keymap/vi.rs:vi_move_word_end", "src/keymap/vi.rs:pop_mode_after_movement"]}
{"id": "C63", "title": "Vi character motions stay on the line", "statement": "h, Backspace, l, space, 0, ^ and $ with a count move by that many characters but never before the first or past the last character, and leave the text alone.", "quantifier": "every text, cursor and count", "why_tests_cant": "all texts and counts up to 2^32-1", "anchors": ["src/keymap/vi.rs:handle_key_normal", "src/keymap/vi.rs:move_count_left", "src/keymap/vi.rs:move_count_right"]}
{"id": "C64", "title": "Vi insert commands put the typed text in the right place", "statement": "i, a, I and A with count n put what is typed before the cursor, after it, at the start or at the end of the line, n times; s first removes min(n, rest) characters and C the rest of the line. Backspace and Delete in between act on the line as they go. After Esc the cursor is on the character before the place reached.", "quantifier": "every line, cursor, count and typed keys", "why_tests_cant": "all lines, counts and texts", "anchors": ["src/keymap/vi.rs:handle_key_normal", "src/keymap/vi.rs:handle_key_insert"]}
{"id": "C65", "title": "Vi change replaces exactly the designated span", "statement": "c followed by h, l, space, Backspace, ^, $, 0 (without counts), w, W, b, B, or by f, t, F, T with a target that exists, each with counts, and cc, replaces exactly the designated span by what is typed before Esc.", "quantifier": "every line, cursor, counts, motion and typed keys", "why_tests_cant": "all lines, counts and texts", "anchors": ["src/keymap/vi.rs:handle_key_delete_or_change", "src/keymap/vi.rs:pop_mode_after_movement"]}
{"id": "C66", "title": "One u takes back a Vi deletion", "statement": "After x, D, dd, or d followed by h, l, space, Backspace, ^, $, 0 (without counts), w, W, b, B, or by f, t, F, T with a target that exists, each with counts, one u restores the text from before.", "quantifier": "every line, cursor, counts and motion", "why_tests_cant": "all lines, counts and motions", "anchors": ["src/keymap/vi.rs:handle_key_normal", "src/buffer.rs:undo"]}
{"id": "C67", "title": "FilenameCompleter offers exactly the matching entries", "statement": "For a word naming d followed by the beginning n of a name (d empty, '/' or a tidy directory path followed by '/'; no backslashes besides escaped spaces; not quoted), the candidates are, in directory order, exactly the entries of the directory d (inside the working directory) whose name begins with n, up to case when case-insensitive, each written as d followed by the name, with '/' after directories and spaces escaped. For a word that is empty or ends in '/', they are all entries of that directory.", "quantifier": "every word of that form, working directory, directory content and case setting", "why_tests_cant": "all paths, names and directory contents", "anchors": ["src/complete.rs:FilenameCompleter"]}
{"id": "C68", "title": "Vi r overwrites the counted characters or nothing", "statement": "In normal mode, a count n, r and a character x (not tab or newline) replace the n characters at and after the cursor by x and leave the cursor on the last of them, if the line has n characters from the cursor on; otherwise nothing changes. The length of the line never changes. One u restores the text. r followed by Esc, Backspace or Delete changes nothing.", "quantifier": "every line, cursor, count and character", "why_tests_cant": "all lines, cursors, counts (including saturated ones) and characters", "anchors": ["src/keymap/vi.rs:handle_key_replace"]}
{"id": "C69", "title": "Vi ~ swaps the case of the counted characters", "statement": "In normal mode, a count n and ~ map each of the n characters at and after the cursor (all that remain, if fewer) to its upper case if it is lower case, to its lower case if it is upper case, and keep it otherwise; the rest of the line is unchanged and the cursor goes to the character after them (or the last one of the line). An uncounted ~ on a letter is restored by one u.", "quantifier": "every line, cursor, count and Unicode case table", "why_tests_cant": "all lines, counts and case mappings, including those that change the number of characters", "anchors": ["src/keymap/vi.rs:handle_key_normal"]}
{"id": "C70", "title": "A counted u is that many single ones", "statement": "In normal mode, n u leads to the same text and cursor as typing u n times.", "quantifier": "every session state, undo history and count", "why_tests_cant": "all undo histories and counts up to 2^32-1", "anchors": ["src/keymap/vi.rs:handle_key_normal", "src/buffer.rs:undo"]}
{"id": "C71", "title": "A count applies to one command only", "statement": "After a count and a complete normal-mode command, the next command is read without a count.", "quantifier": "every command", "why_tests_cant": "all sequences of commands", "anchors": ["src/keymap/vi.rs:handle_key_normal"]}
{"id": "C72", "title": "Vi . repeats the last change", "statement": "In normal mode, . does what the last change would do if its keys were given again with the count it was given with, and n . what it would do with the count n, which then becomes the remembered count. This holds however changes (x, D, r, d and c with a motion, i, a, I, A, s with typed text), repetitions, motions and u follow each other.", "quantifier": "every line, cursor and sequence of changes, repetitions, motions and undos", "why_tests_cant": "all unbounded sequences of commands with all counts and typed texts", "anchors": ["src/keymap/vi.rs:repeat", "src/keymap/vi.rs:handle_key_normal", "src/keymap/vi.rs:pop_mode_after_movement"]}
{"id": "C73", "title": "Up and Down walk through the offered lines one at a time", "statement": "From the new line, with text t typed, Up (also Ctrl-p, Vi k) offers, nearest first, the history lines that start with t and are longer, newest first, then those that contain t elsewhere, newest first; with nothing typed all lines, newest first. Each Up shows the next offered line and stays on the last one; each Down (Ctrl-n, Vi j) shows the one before, and before the first the new line again. A line is shown as it is in the history even when a copy of it was edited on the way, with the cursor at its end (in Vi normal mode on its last character). In between, any movement, and on an offered line any edit, completion or mode change may happen, but no search, no clearing of the screen, no accepting of a suggestion, no Alt-< or Alt-> and no Vi . (these lose or keep the place wrongly); the Emacs session before may not contain Alt->.", "quantifier": "every history without sharing, every session, every walk", "why_tests_cant": "all histories and all unbounded interleavings of Up, Down, movements and edits", "anchors": ["src/editor.rs:move_up", "src/editor.rs:move_down", "src/history.rs:get_history_subset", "src/keymap/vi.rs:handle_key_insert"]}
{"id": "C74", "title": "A search follows its term", "statement": "Whatever keys are pressed, while a search runs the entry shown contains the term, and none is shown exactly when no entry contains it or the term is empty. When a character is typed into the term or deleted before the cursor, the search goes on: the term changes at the cursor, and a reverse search stays where it is if that entry still matches, else goes to the nearest older match, else to the oldest; a forward search stays, else goes to the nearest newer match, else to the oldest; if no entry was selected, a reverse search selects the newest match and a forward one the oldest. (While the line shown is the term, not a history line brought up by Alt-<.)", "quantifier": "every history, every session, every term and every edit of it", "why_tests_cant": "all histories, all terms and all unbounded key sequences before the edit", "anchors": ["src/editor.rs:refresh_search", "src/editor.rs:search", "src/editor.rs:_display", "src/history.rs:search_index"]}
{"id": "C75", "title": "A shared history is read again when it is looked at", "statement": "With sharing on, no key changes a file, and the history in memory stays as it was or becomes what reading its file gives. The first Up, Ctrl-p (Vi: k), Ctrl-r or Ctrl-s of a line reads the file as other processes left it, if its size changed: the entries are then the newest of its lines, and Up shows the first of those offered for what was typed. After that the entries stay the same, whatever other processes write, until Enter or Down is pressed; Enter, and Down on an empty new line, let the next look read the file again. (In Vi normal mode the stability excludes `.`.)", "quantifier": "every shared history, every content of its file at every moment, every session", "why_tests_cant": "all interleavings of key presses with changes made by other processes", "anchors": ["src/editor.rs:freshen_history", "src/editor.rs:move_up", "src/editor.rs:move_down", "src/editor.rs:search", "src/editor.rs:handle_newline", "src/history.rs:load_history"]}
{"id": "C76", "title": "A program that reads line after line remembers exactly what was entered", "statement": "In a program that reads lines in a loop and pushes each returned line (the example programs), however the keys are used in between - recalled lines edited, searches, lines given up with Ctrl-C, a change of key map - the history always holds the newest of the lines it had and the lines entered, repetitions left out, and no file changes before the end. At the start of the next line Up shows the line entered last and n Ups the n-th newest. After the program is left, its file holds these lines, other files are unchanged, and the next run starts with them. Reverting the history's entries would change nothing.", "quantifier": "every history with sharing and incremental writing off, every number of lines, every key sequence of every line in either key map, every file content of UTF-8 lines at the start", "why_tests_cant": "all sequences of whole editing sessions feeding one another's history", "anchors": ["examples/comments.rs:main", "src/context.rs:read_line", "src/context.rs:revert_all_history", "src/history.rs:push", "src/history.rs:commit_to_file", "src/history.rs:set_file_name_and_load_history"]}
{"id": "C77", "title": "A completer that only looks at the editor cannot disturb a session", "statement": "For every completer with a state of its own that only looks at the editor when it gets events, and every sequence of keys, the session (the keymap state, the editor, the returned line, the error) is the one obtained with the same keys in the same surroundings from a stateless completer giving some answers. When reading a key fails, the session ends with that error in the state the keys before led to.", "quantifier": "every completer, key map, key sequence and state", "why_tests_cant": "all completers with all their states", "anchors": ["src/keymap/mod.rs:handle_key", "src/editor.rs:complete", "src/complete.rs:Completer", "src/event.rs:Event", "src/context.rs:handle_keys"]}
{"id": "C78", "title": "A completer gets BeforeKey and AfterKey for every key and BeforeComplete for Tab, in order", "statement": "During a session a completer gets, for each key in order, BeforeKey with that key, BeforeComplete if it is Tab, and AfterKey with the key (Backspace for Ctrl-h); nothing after the Enter that finishes the line; for a key that ends the session with an error, BeforeKey and perhaps some of the rest.", "quantifier": "every completer (also one that changes the editor), key map, key sequence and state", "why_tests_cant": "all sessions", "anchors": ["src/keymap/mod.rs:handle_key", "src/editor.rs:complete", "src/event.rs:EventKind"]}
{"id": "C79", "title": "The example completer completes file names exactly after the first word", "statement": "With the completer of the example programs, Tab changes nothing while the cursor is not past the end of the first word; after it Tab completes the word by the file names of the working directory in the way of C29; a single match replaces the part of the word before the cursor.", "quantifier": "every line, cursor, directory, key map and word division with increasing words", "why_tests_cant": "all lines and cursor positions", "anchors": ["examples/comments.rs:CommentCompleter", "examples/nocomments.rs:NoCommentCompleter", "src/editor.rs:get_words_and_cursor_position"]}
{"id": "C80", "title": "A redraw leaves nothing of the line before on the screen", "statement": "After a redraw without a list of candidates, inside a search or not, the screen shows from the row of the prompt on exactly the layout of prompt, line and suggestion, every other cell there is blank and the rows above are unchanged, whatever the screen showed before; the prompt stays in the row where the redraw before it began. Prompt and line consist of characters one cell wide (and newlines after a prompt narrower than the terminal).", "quantifier": "every editor state, prompt, line, suggestion, colouring, terminal width, screen content and cursor position", "why_tests_cant": "all earlier screen contents and all combinations of widths", "anchors": ["src/editor.rs:display_impl"]}
{"id": "C81", "title": "A list of candidates does not move the prompt", "statement": "A list of completion candidates is drawn in columns from the row on where the redraw before it began, with prompt and line below it and nothing else there, and the next redraw begins in the same row.", "quantifier": "every editor state, list of candidates, highlighted candidate, terminal width and screen content", "why_tests_cant": "the number of candidates, their lengths and the terminal width interact", "anchors": ["src/editor.rs:print_completion_list", "src/editor.rs:display_impl"]}
{"id": "C82", "title": "The screen is up to date after every key", "statement": "From the banner of a new editor until the line is finished, everything written to the terminal is whole redraws, and the last of them showed the prompt, line, cursor, suggestion and search the editor has after the last key. If all of them are drawn in characters one cell wide and without candidates, then after any sequence of keys the rows above the session are untouched, prompt, line and suggestion stand from one row on with nothing else on the screen there, and the cursor stands at the editor's cursor; that row is the one the session began in unless Ctrl-l was pressed.", "quantifier": "every sequence of Emacs and Vi keys, initial line, history, prompt, completer, terminal width (also changing between keys for the first part) and screen content", "why_tests_cant": "every key in every state would have to be followed by an inspection of the screen", "anchors": ["src/editor.rs:display_impl", "src/editor.rs:clear", "src/keymap/mod.rs:handle_key", "src/keymap/vi.rs:set_editor_mode"]}
{"id": "C83", "title": "After Enter, output continues below the line", "statement": "When Enter finishes the line, the screen shows from the row of the prompt on exactly the prompt and the line, without the suggestion; the rows above are unchanged; and the cursor is at the beginning of a row below every character of the line, so that what the program prints next does not overwrite it.", "quantifier": "every editor state outside a search, prompt, line, suggestion, terminal width, screen content and cursor row", "why_tests_cant": "depends on how the widths of prompt, line and suggestion compare with the terminal's; the existing tests use no terminal", "anchors": ["src/editor.rs:handle_newline", "src/editor.rs:display_impl"]}
{"id": "C84", "title": "On a terminal that scrolls, the screen is up to date after every key", "statement": "On a terminal with any number of rows, which scrolls when a line is printed past its last row, after every key of a session the rows from the prompt on show exactly the prompt, the line and the suggestion, in full; the rows above show what was there before, moved up by the rows scrolled; and the terminal's cursor is on the character the editor's cursor is on.", "quantifier": "every session (Emacs or Vi keys), terminal width and height, initial screen and cursor row", "why_tests_cant": "the tests have no terminal; what a redraw erases depends on the rows the previous redraws took and on the bottom of the screen", "anchors": ["src/editor.rs:display_impl", "src/editor.rs:handle_key"]}
{"id": "C85", "title": "Walking through the history and editing behave like a pure editor", "statement": "An Emacs session that mixes editing with Up and Down (or Ctrl-p and Ctrl-n) shows after every key exactly what a pure editor shows that keeps: the line being typed with its earlier texts, which is put aside and comes back unchanged; the entries offered for the text typed (all of them if nothing was typed), of which Up and Down show the next and the one before; the copy of a recalled entry that edits go to, while the entry itself stays as it is; and the suggestion, which is the newest longer entry on the new line, the entry itself on a recalled line that was not edited, and none after that.", "quantifier": "every history that is not shared, initial text, word division and sequence of keys", "why_tests_cant": "what a key shows depends on the whole session: on what was typed, on which entries were recalled and edited, and in which order", "anchors": ["src/editor.rs:move_up", "src/editor.rs:move_down", "src/editor.rs:cur_buf_mut", "src/editor.rs:accept_autosuggestion", "src/keymap/emacs.rs:handle_key_core"]}
{"id": "C86", "title": "Undo takes back what was typed and stops at the recalled line", "statement": "On every line of a session, new or recalled from the history, typing n characters and undoing n times gives the line as it was; on a recalled line further undos stop at the line as it was recalled.", "quantifier": "every history that is not shared, session of Emacs keys, line and text typed", "why_tests_cant": "the undo stack of a recalled line also holds what happened to the lines recalled before it", "anchors": ["src/editor.rs:undo", "src/editor.rs:cur_buf_mut", "src/buffer.rs:copy_buffer", "src/buffer.rs:undo"]}
{"id": "C87", "title": "read_line returns exactly the line a pure editor computes", "statement": "Reading a line with the Emacs keys returns exactly the text that a pure editor with a book of history lines computes from the keys up to the Enter that ends the line, Enter after a backslash continuing it; it fails with Interrupted or UnexpectedEof exactly when that editor meets Ctrl-c, or Ctrl-d on an empty line; and the history is left as it was.", "quantifier": "every history that is not shared, initial line without undo records, word divider and sequence of keys except Tab, the search keys and Alt-<, Alt->, Alt-.", "why_tests_cant": "the outcome depends on the whole sequence of edits, recalls and continuations before Enter", "anchors": ["src/context.rs:read_line_with_init_buffer", "src/keymap/mod.rs:handle_key", "src/editor.rs:handle_newline", "src/editor.rs:clear_search"]}
{"id": "C88", "title": "Vi Ctrl-r redoes what u took back", "statement": "Under the Vi keys, in normal mode, Ctrl-r does again the change that u took back last.", "quantifier": "every state of the editor and of the Vi key map", "why_tests_cant": "the claim is about every state, and no test presses the key after u", "anchors": ["src/keymap/vi.rs:850", "src/keymap/mod.rs:53", "src/editor.rs:search", "src/editor.rs:redo"]}
{"id": "C89", "title": "Alt-< shows the oldest line, Alt-> the new one", "statement": "Alt-< shows the oldest line of the history as it is stored there, even if a copy of it was edited before, with the cursor at its end, or leaves the new line shown if the history is empty; Alt-> shows the new line exactly as it was typed, moving the cursor to its end only if a recalled line was shown; neither changes the new line or the history, and neither ends the line.", "quantifier": "every state of the Emacs keys outside a search, whatever was typed, recalled or edited before, and every history, shared or not", "why_tests_cant": "the state carries a copy of an edited line, a list of offered lines and a place in it, any of which could be shown by mistake", "anchors": ["src/editor.rs:move_to_start_of_history", "src/editor.rs:move_to_end_of_history", "src/keymap/emacs.rs:handle_alt_key"]}
{"id": "C90", "title": "A key without a meaning does nothing", "statement": "A key that the key map gives no meaning (Null, unknown keys, unused Ctrl and Alt letters; Esc with the Emacs keys) changes neither the line, the cursor, the history, an incremental search nor, in Vi, the mode, a count or what . repeats, and sends nothing to the terminal; it only puts the list of candidates away and, with the Emacs keys, makes Alt-. start again.", "quantifier": "every state of an Emacs session, and of a Vi session in normal or insert mode, and every such key", "why_tests_cant": "there are as many such keys as characters, and the state they must leave alone has more than twenty parts", "anchors": ["src/keymap/mod.rs:handle_key", "src/keymap/emacs.rs:handle_key_core", "src/keymap/emacs.rs:handle_ctrl_key", "src/keymap/emacs.rs:handle_alt_key", "src/keymap/vi.rs:handle_key_common"]}
{"id": "C91", "title": "Two names of a key act alike", "statement": "Ctrl-h acts as Backspace under every key map; with the Emacs keys Ctrl-a acts as Home, Ctrl-e as End, Ctrl-b as Left, Ctrl-p as Up, Ctrl-n as Down, Ctrl-d on a line that is not empty as Delete, and Ctrl-f as Right if the cursor is at the end of the line or no suggestion is shown: same state after the key, same output, same failure.", "quantifier": "every state, terminal and history, also in a search and while a recalled line is shown", "why_tests_cant": "the two names take different ways through handle_key, which treats Ctrl keys and Right specially depending on the line and the suggestion", "anchors": ["src/keymap/mod.rs:handle_key", "src/keymap/emacs.rs:handle_ctrl_key", "src/keymap/emacs.rs:handle_key_core"]}
