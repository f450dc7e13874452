# A Rocq model of liner, and what is proved about it

## What is modelled

The library is a deterministic state machine once its surroundings are fixed, so
it is modelled as total Gallina functions, one per Rust function, in
`rocq/theories/`. Every definition carries the file and lines it models.

| file | models |
|---|---|
| `Base.v` | characters, results, the state/error/panic monad |
| `Utf8.v` | UTF-8 encoding and decoding (std's `String`/`char` encoding, used by file and byte code) |
| `BufferModel.v` | `src/buffer.rs` |
| `UtilModel.v` | `src/util.rs`, `CursorPosition` of `src/editor.rs`, `get_buffer_words` of `src/context.rs` |
| `HistoryModel.v` | `src/history.rs` with a model of the file system |
| `EditorState.v`, `EditorModel.v` | `src/editor.rs`, including the escape sequences written by `display_impl` |
| `KeymapModel.v` | `src/keymap/mod.rs`, `src/keymap/emacs.rs`, `handle_keys`/`read_line` of `src/context.rs` |
| `ViModel.v` | `src/keymap/vi.rs` |
| `CompleteModel.v` | `src/complete.rs` and the parts of `std::path` it uses |
| `ReplModel.v` | the loop of `examples/comments.rs` and `examples/nocomments.rs`, `revert_all_history` of `src/context.rs` |
| `EventModel.v` | `src/event.rs`, `handle_key`, `complete`, `handle_keys` and `read_line` for completers with state and events, errors of `next_key`, `CommentCompleter` of the examples |
| `Tests.v` | the repository's unit tests, transcribed and run on the model (tests of the model, not proofs) |
| `Samples.v` | short names for concrete sessions, used by the Examples |

The remaining files come in groups. `*Spec.v` holds the vocabulary the
properties are stated with. `*Props.v` holds the property theorems, each with an
Example and `Print Assumptions`. Everything else is proofs.

| properties | specification | proofs | theorems |
|---|---|---|---|
| C01-C07, C53-C55, C61: buffers | `BufferSpec` | `BufferProofs`, `BufferGroups`, `TextProofs`, `Utf8Proofs` | `BufferProps` |
| C17-C20, C46, C60: helpers | `UtilSpec` | `UtilProofs` | `UtilProps` |
| C08-C16, C47-C52: history | `HistorySpec` | `HistoryProofs`, `HistoryFiles` | `HistoryProps` |
| C21, C23, C27, C28, C30, C31, C33, C34, C43, C44, C56-C59: editor | `EditorSpec` | `MonadLemmas`, `EditorLemmas`, `EditorOps`, `CursorProofs`, `EditorProofs`, `SuggestProofs`, `SuggestSession`, `SearchProofs`, `SessionProofs`, `ErrorProofs` | `EditorProps` |
| C22, C32: Emacs keys | `EmacsSpec` | `EmacsProofs`, `LastArgProofs` | `EmacsProps` |
| C24: browsing | `BrowseSpec` | `BrowseProofs` | `BrowseProps` |
| C25: no panic, Emacs | `SafeSpec` | `SafeProofs`, `SafeEditor`, `SafeMethods`, `SafeEmacs`, `InterruptProofs` (C28) | `SafeProps` |
| C26: no panic, Vi | `SafeViSpec` | `SafeView`, `SafeVi`, `SafeViCore` | `SafeViProps` |
| C29: Tab | `TabSpec` | `TabProofs` | `TabProps` |
| C35-C41, C62-C66: Vi keys | `ViSpec` | `ViEffects`, `ViModes`, `ViRepeat`, `ViMotion`, `ViKeys`, `ViCommands`, `ViInsert` | `ViProps` |
| C68-C71: Vi `r`, `~`, counted `u`, the count | `ViSpec`, `ViChangeSpec` | `ViChange`, `ViCount` | `ViChangeProps` |
| C72: Vi `.` | `ViSpec`, `ViDotSpec` | `ViHint`, `ViDot` | `ViDotProps` |
| C73: Up and Down | `WalkSpec` | `PinProofs`, `WalkProofs` | `WalkProps` |
| C74: searches, C31 in sessions | `SearchSpec` | `SearchSession`, `SearchFollow` | `SearchProps` |
| C75: shared histories | `ShareSpec` | `ShareProofs`, `ShareRuns` (and `WalkProofs`) | `ShareProps` |
| C76: reading line after line | `ReplSpec` | `ReplProofs` | `ReplProps` |
| C77-C79: events, completers with state | `EventSpec` | `EventProofs`, `EventRuns` | `EventProps` |
| C80, C81: the contents of the screen | `GridSpec` | `GridProofs` | `GridProps` |
| C82: the screen during a session | `FreshSpec` | `FreshProofs` | `FreshProps` |
| C83: the screen after Enter | `EnterSpec` | `EnterProofs` | `EnterProps` |
| C84: a terminal that scrolls | `ScrollSpec` | `ScrollProofs` | `ScrollProps` |
| C85, C86: editing and walking through the history | `BookSpec` | `BookProofs` | `BookProps` |
| C87: reading one line | `ReadSpec` (on `BookSpec`) | `ReadProofs`, `ReadTotal` | `ReadProps` |
| C88: Ctrl-r under the Vi keys | | `RedoProofs` | `RedoProps` |
| C89: the two ends of the history | | `EndsProofs` | `EndsProps` |
| C90: keys without a meaning | `InertSpec` | `InertProofs` | `InertProps` |
| C91: keys with two names | | `AliasProofs` | `AliasProps` |
| C42: redraw | `ScreenSpec` | `ScreenProofs` | `ScreenProps` |
| C45, C67: file names | `CompleteSpec` | `CompleteProofs` | `CompleteProps` |

Modelling decisions (the trusted reading of the code):

* `usize`, `u64` are unbounded naturals. Subtraction that would go below zero,
  slicing out of range, indexing out of range, `unwrap` on `None`,
  `unreachable!` and cutting a `str` off a character boundary are explicit
  panics (so the model is the program built with overflow checks). `u32`
  counts of the Vi keymap and the `u16` casts of `display_impl` are modelled
  with their real width.
* `char` is a natural number (`N`), a text is a list of them; where it matters
  theorems assume Unicode scalar values.
* Unicode tables (`is_whitespace`, `is_alphanumeric`, case mapping,
  `unicode_width`, `strip_ansi_escapes::strip`) are parameters of the model: a
  record of arbitrary functions. Theorems hold for every such record, or state
  what they need of it.
* The terminal size, success of terminal writes, the completer, the word
  divider and the colour closure are parameters too (an environment record that
  may be different for every key press). There `Completer::on_event` is the
  default no-op; `EventModel.v` has completers with state and events, and C77
  carries the theorems over to those that only look at the editor.
* Files: a file system maps paths to byte contents with flags for "readable",
  "writable" and "creatable". Writes to an opened file succeed completely,
  except in the crash model, which looks at every intermediate disk state.
* The recursion of the Vi keymap through `.` and counted inserts runs on fuel.
  `C39_terminates` shows that the fuel given is never used up, so the fuel is
  no restriction.
* The terminal of C42 (`ScreenSpec.v`) is a specification, not a model of code in
  the repository. It wraps lazily at the right edge, reads a movement by 0 as a
  movement by 1, and never scrolls. The one of C84 (`ScrollSpec.v`) has a last row
  and scrolls.
* `std::path` is modelled for Unix paths that are texts. Directory reading is a
  parameter. The completion theorems hold for every directory reader.
* The loop of the example programs and `revert_all_history` are modelled in
  `ReplModel.v` (their messages to the user are left out).
* Not modelled: threads, performance, memory limits, termion's key parser, raw
  mode, non-UTF-8 paths, and the
  parts of `src/context.rs` that only store settings.

## How each property is handled

Three outcomes are possible: proved as stated; refuted by the code as it is (a
theorem `..._refuted` exhibits a concrete reachable witness and the strongest
true part is proved as `..._partial`); or not expressible.

* C01, C05, C06: direct equations about the buffer model against list specs.
* C02-C04: invariant over operation sequences: the undo stack is a chain of
  inverse edits from the original text to the current one, the redo stack a
  chain forwards. Group laws by induction over the nesting.
* C07: UTF-8 codec proved inverse for all scalar values.
* C08: fold over the pushes refined to "last m of the collapsed sequence".
* C09, C12, C33, C34, C43, C16, C47, C10, C14: expected to be refuted; witnesses computed
  on the model, plus the true part.
* C11, C13, C15: equations against declarative list specs (filter, last
  occurrence, sorted index lists).
* C17, C18: loop invariants of the two scanners.
* C19: maximality of the returned prefix.
* C20: automaton against an inductive grammar of escape sequences.
* C21, C23, C24, C25, C26, C41: invariants of the editor and keymap states preserved by
  every key; sessions by induction over the key list.
* C22: simulation with a pure zipper editor.
* C27, C28, C30, C31, C29, C32: step theorems about `handle_key` and the editor calls.
* C35-C40: step theorems about the Vi keymap; termination of `.` by
  showing the fuel of the model always suffices.
* C42: a terminal emulator runs the emitted tokens; cursor cell compared with the
  cell of the logical cursor.
* C44: layout function against a row/column spec.
* C45, C46: the completers (paths as component lists).

## What the properties turned out to say about the code

Every item is a theorem; the names are in `MANIFEST.json`.

* Undo: a group that starts with an empty group is taken back together with the
  edit before it, and inserting nothing outside the text spoils later undos (C02,
  C04). With an unclosed group redo goes further than undo went back (C03). Undo
  on an untouched recalled line blanks it (C57); on an edited one it goes on to the
  empty line and then to the edited copies of other entries (C86).
* Vi's Ctrl-r never reaches redo, because `handle_key` takes it for a search (C88).
* History files: lines containing newlines, starting with `#` or ending in a
  carriage return do not survive a round trip (C10, C48). A shared compaction can
  drop the line being pushed (C12, C49). Rewriting the file is not atomic (C14).
  `remove_duplicates` misses entries with newlines (C16, C51). Loading can exceed
  `max_buffers_size` (C47, C52).
* `clear()` never clears the terminal (C43, C58). The row count of the candidate
  list can be wrong (C44): with a full last row the next redraw erases the row
  above the prompt, with long candidates old lists stay on the screen (C81).
  After Enter on a line whose suggestion takes more rows than the line, the output of the program
  overwrites the line (C83). With a line taller than the screen the cursor is
  shown on another character (C84). `take_exec_buffer` can blank a history entry (C34).
* Panics under the Emacs keys were found in a search over an entry that is not
  ASCII, with a suggestion of several lines that is not ASCII, with a shared
  history that became shorter, with 65536 rows, and with a terminal width of 0.
  `C25_partial` excludes all other panics under the conditions of `SafeSpec.v`. Under the Vi keys ordinary
  key sequences panic, six of which are theorems (C26).
* `FilenameCompleter` panics on some words (C45).
* A redraw misplaces the cursor with wide characters at the right edge, with an
  empty prompt, and with a prompt as wide as the terminal (C42).
* Vi: an unsuccessful `df` deletes a character, and `3d0` is not a deletion (C40);
  `de` spares the last character of a word (C62); `.` can leave insert mode on
  (C39); arrow keys split the undo unit, and `i` Esc `u` undoes an older change
  (C36).

* Vi: `~` and `.` keep their counts (C71).

Seen while modelling, not stated as theorems: Tab gives the completer the whole
word but replaces only the part before the cursor; `load_history(false)` on an
empty new file clears the memory.

## Trusted base

Coq's kernel (8.16.1); no axioms: `Print Assumptions`, below each property
theorem, prints "Closed under the global context" for all of them. (`Lia` loads
library files that declare a few `ssr` axioms; no theorem uses them.) What the
theorems say about liner depends on the model being a faithful reading of the
sources, under the decisions listed above. `seeded/LOG.jsonl` records how the
theorems reacted to deliberately wrong models.
