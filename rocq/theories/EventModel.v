(** Model of src/event.rs and of completers with a state of their own that get
    events, through src/keymap/mod.rs, [Editor::complete] and the session loop;
    the completer of the example programs. *)
From Verif Require Import Base Utf8 BufferModel UtilModel HistoryModel EditorState EditorModel KeymapModel ViModel
  CompleteModel ReplModel.
Local Open Scope monad_scope.

(** src/event.rs:15-23 [EventKind] *)
Inductive event := BeforeKey (k : key) | AfterKey (k : key) | BeforeComplete.

(** src/complete.rs:6-9 [trait Completer]: both functions may change the
    completer; [on_event] gets the editor and may change it too. *)
Record completer (D : Type) := mkCompleter {
  c_completions : text -> D -> res (list text * D);
  c_event : env -> event -> D -> ed -> res (D * ed)
}.
Arguments mkCompleter {D} _ _.
Arguments c_completions {D} _ _ _.
Arguments c_event {D} _ _ _ _ _.

Section Completer.
Context {D K : Type}.
Variable C : completer D.

(** src/event.rs:4-13: an event is sent with the editor. *)
Definition send (E : env) (ev : event) : MK (D * K) unit := fun '((d, x), s) =>
  match c_event C E ev d s with
  | Val (d', s') => ORet tt ((d', x), s')
  | Pan p => OPanic p
  end.

(** [handler.completions(word)] *)
Definition ask (w : text) : MK (D * K) (list text) := fun '((d, x), s) =>
  match c_completions C w d with
  | Val (l, d') => ORet l ((d', x), s)
  | Pan p => OPanic p
  end.

(** Running a key map method. *)
Definition inner {A} (m : MK K A) : MK (D * K) A := fun '((d, x), s) =>
  match m (x, s) with
  | ORet a (x', s') => ORet a ((d, x'), s')
  | OErr e (x', s') => OErr e ((d, x'), s')
  | OPanic p => OPanic p
  | OFuel => OFuel
  end.

(** src/editor.rs:546-613 [complete]; with a list shown the completer is not
    asked and the code is that of [EditorModel.complete] (src/editor.rs:549-566). *)
Definition complete_with (E : env) : MK (D * K) unit :=
  send E BeforeComplete ;;;
  s <- gete ;;
  match ed_hint s with
  | Some _ => lift (complete E)
  | None =>
    wr <- liftr (get_word_before_cursor E false s) ;;
    word <- lift (with_cur_mut (fun b =>
      rbind (match wr with Some (st, en) => buf_range b st en | None => Val [] end)
            (fun w => Val (w, b)))) ;;
    answer <- ask word ;;
    let completions := dedup_adj (sort_texts answer) in
    match completions with
    | [] => lift (modify (set_hint None))
    | [c] =>
      lift (modify (set_hint None)) ;;;
      lift (delete_word_before_cursor E false) ;;;
      lift (insert_str_after_cursor E c)
    | _ =>
      match find_longest_common_prefix completions with
      | Some p =>
        if (blen word <? blen p) && prefixb word p then
          lift (delete_word_before_cursor E false) ;;; lift (insert_str_after_cursor E p)
        else lift (modify (set_hint (Some (completions, None)))) ;;; lift (display E)
      | None => lift (modify (set_hint (Some (completions, None)))) ;;; lift (display E)
      end
    end
  end.

(** src/keymap/mod.rs:19-76 [handle_key] *)
Definition handle_key_with (core : env -> key -> MK K unit) (E : env) (k : key) : MK (D * K) bool :=
  send E (BeforeKey k) ;;;
  s <- gete ;;
  is_empty <- (fun st => match cur_buf s with
                         | Val b => ORet (buf_is_empty b) st
                         | Pan p => OPanic p
                         end) ;;
  let k := match k with KCtrl c => if is_char c "h" then KBackspace else k | _ => k end in
  let other := inner (core E k) ;;; mod_ed skip_completions_hint ;;; ret false in
  done <- (match k with
    | KCtrl c =>
      if is_char c "c" then lift (handle_newline E) ;;; fail EInterrupted
      else if is_char c "d" && is_empty then lift (handle_newline E) ;;; fail EUnexpectedEof
      else if is_char c "f" && showing_autosuggestion s then
        lift (accept_autosuggestion E) ;;; ret false
      else if is_char c "r" then lift (search E false) ;;; ret false
      else if is_char c "s" then lift (search E true) ;;; ret false
      else other
    | KChar c =>
      if N.eqb c c_tab then complete_with E ;;; ret false
      else if N.eqb c c_nl then lift (handle_newline E)
      else other
    | KRight =>
      if showing_autosuggestion s then
        at_end <- (fun st => match cursor_is_at_end_of_line s with
                             | Val b => ORet b st
                             | Pan p => OPanic p
                             end) ;;
        if at_end : bool then lift (accept_autosuggestion E) ;;; ret false else other
      else other
    | _ => other
    end) ;;
  send E (AfterKey k) ;;;
  (if e_wok E then ret done else fail EOther).

(** src/context.rs:194-216 the loop of [handle_keys]; [None] is an error of
    [next_key], which ends the session by [key?]. *)
Fixpoint run_inputs (core : env -> key -> MK K unit) (ins : list (env * option key)) : MK (D * K) bool :=
  match ins with
  | [] => ret false
  | (_, None) :: _ => fail EOther
  | (E, Some k) :: ins' =>
    done <- handle_key_with core E k ;;
    if done : bool then ret true else run_inputs core ins'
  end.

(** src/context.rs:171-216 [read_line_with_init_buffer] and [handle_keys] *)
Definition read_line_with (core : env -> key -> MK K unit) (k0 : K) (init : env -> MK K unit)
           (E : env) (p : prompt_t) (f : option (text -> text)) (ib : buffer)
           (h : history) (w : fs) (cb ttys : list tok) (ins : list (env * option key)) (d : D)
  : out ((D * K) * ed) text :=
  match editor_new E p f ib h w cb ttys with
  | ORet _ s =>
    (inner (init E) ;;;
     run_inputs core ins ;;;
     s <- gete ;;
     liftr (ed_result s)) ((d, k0), s)
  | OErr e s => OErr e ((d, k0), s)
  | OPanic q => OPanic q
  | OFuel => OFuel
  end.
End Completer.

(** * The completer of the example programs *)

(** examples/comments.rs:40-53 (examples/nocomments.rs:35-41): is a file name
    to be completed? *)
Definition wants_file_name (pos : cpos) : bool :=
  match pos with
  | InWord i => 0 <? i
  | InSpace (Some _) _ => true
  | InSpace None _ => false
  | OnWordLeftEdge i => 1 <=? i
  | OnWordRightEdge i => 1 <=? i
  end.

(** examples/comments.rs:21-69 [CommentCompleter] (examples/nocomments.rs:20-54);
    its state is the working directory of [inner].  [cwd] is what
    [current_dir()] gives, [None] for an error. *)
Definition comment_completer (rd : reader) (lower : text -> text) (cwd : option path)
  : completer (option path) :=
  mkCompleter
    (fun w inner =>
       match inner with
       | Some dir => rbind (filename_completions rd lower (Some dir) true w) (fun l => Val (l, inner))
       | None => Val ([], inner)
       end)
    (fun E ev inner s =>
       match ev with
       | BeforeComplete =>
         rbind (get_words_and_cursor_position E s) (fun '(_, pos) =>
           if wants_file_name pos
           then match cwd with Some dir => Val (Some dir, s) | None => Pan PUnwrap end
           else Val (None, s))
       | _ => Val (inner, s)
       end).
