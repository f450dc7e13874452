{"claims": [
{"property": "C01", "status": "proved", "theorems": ["C01_edit_is_splice", "C01_in_range_edit_is_a_splice", "C01_out_of_range_panics", "C01_empty_insert", "C01_remove_returns_length"], "note": ""},
{"property": "C02", "status": "partial", "theorems": ["C02_refuted", "C02_undo_reverts_last_edit_partial", "C02_undo_reverts_last_group", "C02_empty_nested_group_refuted"], "note": "False as stated (C02_refuted: an empty insertion beyond the end is recorded and its undo panics; C02_empty_nested_group_refuted: an empty nested group is undone on its own). Proved for edits inside the text and groups without empty nested groups."},
{"property": "C03", "status": "partial", "theorems": ["C03_redo_all_after_undos", "C03_redo_to_end_deterministic", "C03_latest_text", "C03_undo_redo_refuted", "C03_undo_redo_partial", "C03_redo_undo_partial"], "note": "The redo-to-the-end part is proved for every reachable buffer. undo;redo = identity is false when a group was left open (C03_undo_redo_refuted); proved for buffers whose groups are properly closed."},
{"property": "C04", "status": "partial", "theorems": ["C04_refuted", "C04_revert_restores_original_partial", "C04_revert_answer"], "note": "False as stated (C04_refuted, same cause as C02). Proved for every sequence of operations whose insertions lie inside the text."},
{"property": "C05", "status": "proved", "theorems": ["C05_edit_forgets_redo"], "note": ""},
{"property": "C06", "status": "proved", "theorems": ["C06_starts_with", "C06_contains", "C06_last_arg", "C06_last_arg_none", "C06_equality"], "note": ""},
{"property": "C07", "status": "proved", "theorems": ["C07_string_round_trip", "C07_num_bytes", "C07_bytes_decode", "C07_decode_is_inverse", "C07_lines"], "note": ""},
{"property": "C08", "status": "proved", "theorems": ["C08_pushes", "C08_push"], "note": ""},
{"property": "C09", "status": "partial", "theorems": ["C09_refuted", "C09_append_partial", "C09_pushes_partial"], "note": "False as stated (C09_refuted: the compacting push, every thirtieth without load_duplicates, does not write its line). Proved with load_duplicates and between compactions; C09_pushes_partial for whole push sequences."},
{"property": "C10", "status": "partial", "theorems": ["C10_refuted", "C10_plain_lines_partial"], "note": "False as stated (C10_refuted: lines with a newline, a leading '#' or a trailing carriage return). Proved for all other lines; the exact result for every line is C48."},
{"property": "C11", "status": "partial", "theorems": ["C11_load_partial", "C11_reads_total", "C11_reads_unique", "C11_unreadable", "C11_load_history_partial", "C11_load_history_same_size", "C11_append_empty_refuted", "C11_multiline_refuted"], "note": "Proved except in two corners, both shown real: appending an empty file does not trim the existing entries, and de-duplication confuses an existing multi-line entry with the line obtained by joining it."},
{"property": "C12", "status": "partial", "theorems": ["C12_refuted", "C12_line_kept_partial"], "note": "False as stated (C12_refuted: two processes; the thirtieth push loses its line). Proved when no compaction is due or the file has the remembered size; C49 says what happens otherwise."},
{"property": "C13", "status": "proved", "theorems": ["C13_unshared_compaction"], "note": "The file is left alone if nothing has to be removed."},
{"property": "C14", "status": "partial", "theorems": ["C14_refuted", "C14_old_or_prefix_partial", "C14_complete_at_end"], "note": "False as stated (C14_refuted: the file is truncated before it is written). Proved: the file holds its old content or a beginning of the new one."},
{"property": "C15", "status": "proved", "theorems": ["C15_search_index", "C15_history_subset", "C15_newest_match"], "note": ""},
{"property": "C16", "status": "partial", "theorems": ["C16_refuted", "C16_plain_partial"], "note": "False as stated for entries with newlines (C16_refuted); proved for entries without, exact statement C51."},
{"property": "C17", "status": "proved", "theorems": ["C17_word_boundaries", "C17_word_boundaries_determined"], "note": "words_of also determines the division uniquely."},
{"property": "C18", "status": "proved", "theorems": ["C18_cursor_class", "C18_left_edge", "C18_valid_index"], "note": "For touching words the end of the left word is reported."},
{"property": "C19", "status": "proved", "theorems": ["C19_longest_common_prefix", "C19_none", "C19_few"], "note": ""},
{"property": "C20", "status": "proved", "theorems": ["C20_remove_codes", "C20_no_escape_left", "C20_identity_without_escape", "C20_idempotent", "C20_prompt_width"], "note": ""},
{"property": "C21", "status": "proved", "theorems": ["C21_emacs_cursor", "C21_vi_cursor"], "note": ""},
{"property": "C22", "status": "proved", "theorems": ["C22", "C22_default_words"], "note": "For every session started on a line without undo history and every sequence of keys other than Tab, Enter, Ctrl-c and the history, search and Alt-. keys: line and cursor are those of the pure editor (which also knows suggestions, words, undo and revert). Speaks about sessions that return normally; panics are the subject of C25."},
{"property": "C23", "status": "proved", "theorems": ["C23_emacs_history", "C23_vi_history"], "note": "With history sharing off, as stated; also proved for sessions ending in an error. With sharing on: C75_emacs_files, C75_vi_files. take_exec_buffer is not reachable by keys and is C34."},
{"property": "C24", "status": "partial", "theorems": ["C24_emacs", "C24_emacs_return", "C24_vi_partial", "C24_dot_refuted"], "note": "Emacs: proved in full (any mix of moving keys and any keys pressed on a recalled entry outside a search; Right/Ctrl-f when they accept no suggestion). Vi: the same from every reachable state, except for '.', which after cc replays the typed text as commands and can delete from the new line (C24_dot_refuted)."},
{"property": "C25", "status": "partial", "theorems": ["C25_partial", "C25_search_refuted", "C25_lines_refuted", "C25_shared_refuted", "C25_rows_refuted", "C25_width_refuted"], "note": "False in full: five refutations (search in a history with multibyte text, a multi-line suggestion with multibyte text, a shared history that shrank, the 16-bit wrap at 65536 rows, terminal width 0). Proved for every key sequence, prompt, closure, completer and word division with ordered words, and for changing environments, that the only panic left is the 16-bit wrap, when the history is not shared, the reported terminal width is not 0, and text is single-byte, or free of newline and backslash; with Ctrl-r/Ctrl-s for single-byte text without newline, backslash and escape and a prompt without a Vi status."},
{"property": "C26", "status": "partial", "theorems": ["C26_partial", "C26_right_refuted", "C26_find_refuted", "C26_tab_refuted", "C26_search_refuted", "C26_repeat_refuted", "C26_tilde_refuted"], "note": "False in full: six refutations (Right on an empty line in normal mode with a suggestion; d with f/t/;/,/ge where no character is under the cursor; Tab between d and its movement; a search started between d and its movement while a history entry is shown; '.' retyping text inserted by cc as commands; '~' on an empty line with a failing terminal). Proved for every key sequence, the incremental search included, and every prompt, closure, completer and word division, and for changing environments: if each key is careful in the state it is typed in (none of those six kinds of step, also inside what '.' repeats), the history is not shared, the reported width is not 0, and text is single-byte or free of newline and backslash (both, and without escape characters and Vi-mode prompt, if the search is used), then the only panic left is the 16-bit wrap."},
{"property": "C27", "status": "proved", "theorems": ["C27_enter", "C27_enter_search"], "note": "Both keymaps and any other core. With no_eol the cursor after a continuation is clamped as shown. Keys that fail or panic are outside the statement."},
{"property": "C28", "status": "partial", "theorems": ["C28_ctrl_c", "C28_ctrl_c_session", "C28_ctrl_d_empty", "C28_ctrl_d_text", "C28_emacs_partial", "C28_rows_refuted", "C28_terminal_refuted", "C28_vi_partial"], "note": "As stated it is false in two ways, both shown: on 65536 rows the redraw before the error panics, and a terminal that has gone away gives its own error instead. Proved for every key map and state: Ctrl-C never returns, Ctrl-D on an empty line never returns, Ctrl-D on a line with text never finishes it, and an error is the stated one or that of the terminal. Proved for every Emacs and Vi session under the conditions of C25 and C26: the outcome is the stated error, the error of a failing terminal, or the 16-bit overflow, and nothing else."},
{"property": "C29", "status": "partial", "theorems": ["C29_word", "C29_choices", "C29_none", "C29_single", "C29_several", "C29_cycle_partial", "C29_refuted"], "note": "Proved for any key map, any completer and any word division with increasing words: no candidate changes nothing; one distinct candidate replaces the part of the word before the cursor; several insert their longest common prefix if it properly extends the word, else the line stays and every choice is written to the terminal. Cycling: false in general (C29_refuted, choices with spaces after another word); proved for any number of Tabs with the default word division when every choice is a single word or the word is the whole line. Sessions that return normally."},
{"property": "C30", "status": "proved", "theorems": ["C30_suggestion", "C30_accept", "C30_emacs", "C30_vi", "C30_emacs_accept", "C30_vi_accept"], "note": "Proved for every Emacs and Vi session that starts from a new editor: whenever no search is running and no history entry is shown, the stored suggestion is the right one, and accepting it gives the entry and one undo takes it back. In Vi normal mode, where the cursor never stands behind the last character, the end of the line means its last character."},
{"property": "C31", "status": "partial", "theorems": ["C31_refuted", "C31_start_partial", "C31_step", "C31_tour", "C31_emacs_session", "C31_vi_session"], "note": "False as stated (C31_refuted: after browsing with a prefix, the search starts from the browsed entry). Steps and the tour are proved for every start, the steps also in whole Emacs and Vi sessions with any keys in between; the first selection only when nothing was selected before. Enter is C27_enter_search."},
{"property": "C32", "status": "partial", "theorems": ["C32_once", "C32_partial", "C32_refuted"], "note": "False in general (C32_refuted: the second press removes the whole word the argument was joined to). Proved: one press on any line and cursor; n presses with the cursor at the end of a line that is empty or ends in a space, no entry passed being blank; presses beyond the oldest entry change nothing."},
{"property": "C33", "status": "partial", "theorems": ["C33_refuted", "C33_new_line_partial"], "note": "False as stated (C33_refuted); proved on the new line. The exact behaviour on recalled lines is C57."},
{"property": "C34", "status": "partial", "theorems": ["C34_refuted", "C34_exact_partial"], "note": "False as stated (C34_refuted: an unedited recalled entry is emptied). C34_exact_partial gives the result in every case."},
{"property": "C35", "status": "proved", "theorems": ["C35_count", "C35_product"], "note": "From every reachable state in normal mode: digits give min(value, 2^32-1), and the counts before and after d multiply with the same saturation (shown on [n]d[m]l; C40 and C62 use the same combined count). About keys that return normally."},
{"property": "C36", "status": "partial", "theorems": ["C36_undo_partial", "C36_change_partial", "C36_moved_refuted", "C36_empty_refuted"], "note": "proved for i, a, I, A, s, C (with any count) when at least one character is typed, and for c with a motion or cc, in both cases for typed characters, Backspace and Delete. False when an arrow key is pressed in between (the session splits in two) and when nothing is typed (u then takes back an older change); both refuted by examples."},
{"property": "C37", "status": "proved", "theorems": ["C37_word"], "note": "For every character classification in which whitespace is not alphanumeric, with the behaviour at the last/first word made explicit. About keys that return normally."},
{"property": "C38", "status": "proved", "theorems": ["C38_find", "C38_again", "C38_determined"], "note": "f/t/F/T with count, ; and , from every reachable state in normal mode; the target character is neither tab nor newline (those keys are not passed to the key map). About keys that return normally."},
{"property": "C39", "status": "partial", "theorems": ["C39_terminates", "C39_unbounded", "C39_normal_mode_refuted", "C39_normal_mode_partial"], "note": "Termination is proved for every session, with the outcome independent of the recursion bound. 'Leaves normal mode' is false as stated (C39_normal_mode_refuted: C records itself as the command); proved for sessions made of complete commands other than C and cc."},
{"property": "C40", "status": "partial", "theorems": ["C40_x", "C40_D", "C40_dd", "C40_span_partial", "C40_missing_refuted", "C40_zero_refuted"], "note": "x, D, dd and d with h, l, space, Backspace, ^, $, 0 and successful f/t/F/T are proved. False when the search finds nothing (C40_missing_refuted: one character is deleted) and for 0 after a count (C40_zero_refuted)."},
{"property": "C41", "status": "proved", "theorems": ["C41_esc"], "note": ""},
{"property": "C42", "status": "partial", "theorems": ["C42_partial", "C42_search_partial", "C42_empty_refuted", "C42_wide_refuted", "C42_noprompt_refuted", "C42_wideprompt_refuted"], "note": "Proved against a separate terminal emulator (deferred wrap, count 0 means 1, no scrolling): after any redraw of a drawable state the terminal cursor is exactly where the text before the logical cursor ends, outside and inside a search; without a candidate list the prompt stays in its row. Restrictions: printable one-cell characters and newlines only; a multi-line text needs a prompt that is not empty and narrower than the terminal; prompt and line not both empty; fewer than 65536 rows. False in general: four refutations (empty prompt and line drift down; a wide character at the right edge; several lines with an empty prompt; several lines with a prompt as wide as the terminal)."},
{"property": "C43", "status": "partial", "theorems": ["C43_refuted"], "note": "False: C43_refuted; what happens in every state is C58."},
{"property": "C44", "status": "partial", "theorems": ["C44_refuted", "C44_layout_partial"], "note": "The row count is false as stated (C44_refuted); all other parts and both row counts are proved."},
{"property": "C45", "status": "partial", "theorems": ["C45_refuted", "C45_exactly_partial"], "note": "Refuted: completing \".\" without a working directory panics (file_name().unwrap()), and so does a quoted word whose last character is multi-byte. C45_exactly_partial characterises the panicking inputs exactly (if and only if), for every reader and working directory."},
{"property": "C46", "status": "proved", "theorems": ["C46_basic_completer"], "note": ""},
{"property": "C47", "status": "partial", "theorems": ["C47_refuted", "C47_within_limit_partial"], "note": "False as stated (C47_refuted: loading trims to max_file_size); proved when max_file_size <= max_buffers_size, general bound C52."},
{"property": "C48", "status": "proved", "theorems": ["C48_commit_reload", "C48_written_entry", "C48_strip_cr"], "note": ""},
{"property": "C49", "status": "proved", "theorems": ["C49_shared_compaction"], "note": ""},
{"property": "C50", "status": "proved", "theorems": ["C50_crash_while_appending"], "note": ""},
{"property": "C51", "status": "proved", "theorems": ["C51_remove_duplicates"], "note": ""},
{"property": "C52", "status": "proved", "theorems": ["C52_history_bounded"], "note": ""},
{"property": "C53", "status": "proved", "theorems": ["C53_undo_last_edit", "C53_undo_last_group"], "note": ""},
{"property": "C54", "status": "proved", "theorems": ["C54_undo_then_redo", "C54_redo_then_undo"], "note": ""},
{"property": "C55", "status": "proved", "theorems": ["C55_revert"], "note": ""},
{"property": "C56", "status": "proved", "theorems": ["C56_emacs_errors", "C56_vi_errors"], "note": ""},
{"property": "C57", "status": "proved", "theorems": ["C57_undo_recalled"], "note": ""},
{"property": "C58", "status": "proved", "theorems": ["C58_clear"], "note": ""},
{"property": "C59", "status": "proved", "theorems": ["C59_list_fits"], "note": "Candidate lengths are counted in characters, as the code does."},
{"property": "C60", "status": "proved", "theorems": ["C60_terminal_width"], "note": ""},
{"property": "C61", "status": "proved", "theorems": ["C61_print_rest"], "note": ""},
{"property": "C62", "status": "partial", "theorems": ["C62_word_partial", "C62_end_refuted"], "note": "w, W, b and B are proved. False for e (C62_end_refuted: the last character of the word stays)."},
{"property": "C63", "status": "proved", "theorems": ["C63_move"], "note": "From every reachable state in normal mode, for keys that return normally; 0 is a motion only without a count."},
{"property": "C64", "status": "proved", "theorems": ["C64_insert"], "note": ""},
{"property": "C65", "status": "proved", "theorems": ["C65_change"], "note": "motions h l space Backspace 0 ^ $ f t F T (target found) w W b B, and cc. 0 only without counts (3c0 reads 30)."},
{"property": "C66", "status": "proved", "theorems": ["C66_undo"], "note": "motions as for C65"},
{"property": "C67", "status": "proved", "theorems": ["C67_names", "C67_directory"], "note": "Directory reading and to_lowercase are parameters; std::path is modelled for Unix paths that are valid UTF-8."},
{"property": "C68", "status": "proved", "theorems": ["C68_replace", "C68_undo", "C68_cancel"], "note": "Tab and newline after r are excluded: the core handles them before the keymap sees them (completion, accepting the line)."},
{"property": "C69", "status": "proved", "theorems": ["C69_tilde", "C69_undo"], "note": "The case tables are parameters. That a count stays behind after ~ is C71."},
{"property": "C70", "status": "proved", "theorems": ["C70_undos"], "note": ""},
{"property": "C71", "status": "partial", "theorems": ["C71_used_partial", "C71_count_refuted"], "note": "Refuted as stated: after a counted ~ and after a key that is no command the count stays and the next command uses it. C71_used_partial: for every other command (all but ~ and .), from every state and whatever keys complete it, back in the normal mode no count is left; a Right that accepts a suggestion is no command."},
{"property": "C72", "status": "partial", "theorems": ["C72_partial", "C72_find_refuted", "C72_zero_refuted", "C72_line_refuted", "C72_cc_refuted", "C72_C_refuted"], "note": "Proved for all sequences of x, Delete, D, r, d and c with h, l, Backspace, space, ^, $, w, W, b, B and f, t, F, T, insertions by i, a, I, A, s, motions, . and u right after a change. Refuted for the rest: after a counted d or c with f, t, F, T the count is forgotten, after d0 the repetition hangs waiting for a motion, dd and cc are not remembered, and after C the repetition stays in insert mode."},
{"property": "C73", "status": "proved", "theorems": ["C73_emacs", "C73_vi", "C73_stale_refuted", "C73_forgets_refuted"], "note": "Beside it: after Alt-> a later Up goes on from the abandoned place (C73_stale_refuted); after Ctrl-l, or Right at the end of a recalled line, Down does not lead back to the new line (C73_forgets_refuted)."},
{"property": "C74", "status": "proved", "theorems": ["C74_emacs_shows", "C74_vi_shows", "C74_emacs_types", "C74_vi_types", "C74_lost_refuted"], "note": "The shown entry is right in every Emacs and Vi session (C74_emacs_shows, C74_vi_shows); the edits are typed characters and Backspace in Emacs and in Vi insert mode. Beside it: after Alt-< in a search the next typed character is lost (C74_lost_refuted)."},
{"property": "C75", "status": "proved", "theorems": ["C75_emacs_files", "C75_vi_files", "C75_emacs_reads", "C75_vi_reads", "C75_emacs_shows", "C75_vi_shows", "C75_start", "C75_enter", "C75_down"], "note": "Other processes may replace the files before every key (shared_run). The keys are those of the Emacs and the Vi key map; that Down lets the file be read again is shown for Emacs. Reading after the file shrank can panic: C25_shared_refuted."},
{"property": "C76", "status": "proved", "theorems": ["C76_history", "C76_emacs_last", "C76_vi_last", "C76_emacs_up", "C76_vi_up", "C76_file", "C76_restart", "C76_revert"], "note": "Runs that panic or end in another error are not spoken of here (C25, C26, C58). The next start gives back exactly the lines when they are plain (C76_restart); in general up to C48 (C76_file)."},
{"property": "C77", "status": "proved", "theorems": ["C77_session", "C77_line", "C77_read_error"], "note": "The completer must not panic, or the session must not. So all session theorems hold for such completers too."},
{"property": "C78", "status": "proved", "theorems": ["C78_events"], "note": "Stated with a completer that notes down its events."},
{"property": "C79", "status": "proved", "theorems": ["C79_only_looks", "C79_command", "C79_file", "C79_single"], "note": "When current_dir() succeeds and the candidates exist without panic (C45)."},
{"property": "C80", "status": "proved", "theorems": ["C80_exact"], "note": "For drawable prompts and lines (the conditions of C42) and fewer than 65536 rows; the terminal of ScreenSpec/GridSpec has no last row."},
{"property": "C81", "status": "partial", "theorems": ["C81_partial", "C81_refuted", "C81_long_refuted"], "note": "False: with a full last row of candidates the next redraw begins one row higher and overwrites what stood above the prompt (C81_refuted); candidates longer than half a row are padded to more than a row and old lists stay on the screen (C81_long_refuted). C81_partial proves the layout and says exactly where the next redraw begins when no candidate is longer than half a row."},
{"property": "C82", "status": "proved", "theorems": ["C82_emacs", "C82_vi", "C82_screen", "C82_clear_refuted"], "note": "C82_emacs and C82_vi: all that a session writes until the line is finished is whole redraws, and the last one showed the present prompt, line, cursor, suggestion and search. C82_screen: what that leaves on the terminal if every redraw is of characters one cell wide and without candidates (the conditions of C80). Without the exception for Ctrl-l the claim is false (C82_clear_refuted)."},
{"property": "C83", "status": "partial", "theorems": ["C83_partial", "C83_session_partial", "C83_refuted", "C83_vi_refuted"], "note": "C83_partial: when Enter finishes the line outside a search, the screen shows from the prompt's row on exactly prompt and line without the suggestion, the rows above are unchanged and the cursor is in column 0 of a row below all of it, provided the suggestion is the line itself (or absent) or ends in the same row as the line and the line does not fill its row. C83_session_partial: the same over a whole session as in C82. Refuted in general: if the suggestion takes more rows than the line the cursor ends in the row of the line, and the program's output overwrites it (C83_refuted); in Vi's normal mode it is enough that the line fills its row (C83_vi_refuted)."},
{"property": "C84", "status": "partial", "theorems": ["C84_partial", "C84_refuted"], "note": "C84_partial: holds if prompt, line and suggestion of every redraw fit on the screen, with the cell after them (and no candidates are shown, and characters are one cell wide). C84_refuted: a line taller than the screen leaves the terminal's cursor on another character."},
{"property": "C85", "status": "proved", "theorems": ["C85"], "note": "For all keys but Tab, Enter, Ctrl-c, Ctrl-r, Ctrl-s, Alt-<, Alt-> and Alt-. , and a history that is not shared (see C75 for shared ones). C22 is the special case without Up and Down."},
{"property": "C86", "status": "partial", "theorems": ["C86_partial", "C86_empty_refuted", "C86_other_refuted"], "note": "C86_partial: the first half, on new and recalled lines. C86_empty_refuted and C86_other_refuted: on a recalled line undo does not stop: it empties the line, and then shows an edited copy of another entry."},
{"property": "C87", "status": "proved", "theorems": ["C87", "C87_exact"], "note": "C87 says it for every sequence of keys without Tab, Ctrl-r, Ctrl-s, Alt-<, Alt-> and Alt-. and every history that is not shared, up to the first Enter that ends the line, the first Ctrl-c or the first Ctrl-d on an empty line. Terminals that fail are C56. C87_exact adds that on a working terminal and for text of the kinds of C25 nothing else can come out but the overflow of a 16-bit row number."},
{"property": "C88", "status": "partial", "theorems": ["C88_refuted", "C88_partial"], "note": "False as stated: C88_refuted. handle_key takes Ctrl-r for a search before the key map sees it (C88_partial: whatever the state, the new line, the copy of a recalled line and what can be undone and redone stay as they were)."},
{"property": "C89", "status": "proved", "theorems": ["C89_oldest", "C89_new"], "note": "C89_oldest and C89_new say it for every state with no search under way in which the cursor may stand behind the last character (always so with the Emacs keys). They say what holds when the key returns; failing terminals are C56."},
{"property": "C90", "status": "proved", "theorems": ["C90_emacs", "C90_vi"], "note": "C90_emacs and C90_vi give the exact state after the key; if the terminal cannot be flushed, the key fails with that state."},
{"property": "C91", "status": "proved", "theorems": ["C91_backspace", "C91_moves", "C91_delete", "C91_right"], "note": "C91_backspace, C91_moves, C91_delete and C91_right are equations between what the two keys give. The end of the line in C91_right is the Emacs one, behind the last character."}
]}
