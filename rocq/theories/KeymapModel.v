(** Model of src/keymap/mod.rs, src/keymap/emacs.rs and of the session loop
    (src/context.rs). *)
From Verif Require Import Base Utf8 BufferModel UtilModel HistoryModel EditorState EditorModel.
Local Open Scope monad_scope.

(** termion's [Key]; [KOther] stands for the keys no key map mentions
    (PageUp, Insert, F(n), BackTab, ...). *)
Inductive key :=
| KChar (c : char) | KAlt (c : char) | KCtrl (c : char)
| KLeft | KRight | KUp | KDown | KHome | KEnd | KBackspace | KDelete | KEsc | KNull
| KOther (n : nat).

(** State of a session: the key map's own state and the editor. *)
Definition MK (K A : Type) := M (K * ed) A.

(** Running an editor method inside a key map method. *)
Definition lift {K A} (m : ME A) : MK K A := fun '(k, s) =>
  match m s with
  | ORet a s' => ORet a (k, s')
  | OErr e s' => OErr e (k, s')
  | OPanic p => OPanic p
  | OFuel => OFuel
  end.
Definition getk {K} : MK K K := fun '(k, s) => ORet k (k, s).
Definition modk {K} (f : K -> K) : MK K unit := fun '(k, s) => ORet tt (f k, s).
Definition gete {K} : MK K ed := fun '(k, s) => ORet s (k, s).
Definition mod_ed {K} (f : ed -> ed) : MK K unit := fun '(k, s) => ORet tt (k, f s).

Definition is_char (c : char) (x : String.string) : bool := N.eqb c (ch x).
Arguments is_char c x%string.

(** src/keymap/mod.rs:19-76 [handle_key], for a key map given by its
    [handle_key_core].  [on_event] is the default no-op and [flush] has the
    outcome of a write. *)
Definition handle_key {K} (core : env -> key -> MK K unit) (E : env) (k : key) : MK K bool :=
  s <- gete ;;
  is_empty <- (fun st => match cur_buf s with
                         | Val b => ORet (buf_is_empty b) st
                         | Pan p => OPanic p
                         end) ;;
  let k := match k with KCtrl c => if is_char c "h" then KBackspace else k | _ => k end in
  let other := core E k ;;; mod_ed skip_completions_hint ;;; ret false in
  done <- (match k with
    | KCtrl c =>
      if is_char c "c" then lift (handle_newline E) ;;; fail EInterrupted
      else if is_char c "d" && is_empty then lift (handle_newline E) ;;; fail EUnexpectedEof
      else if is_char c "f" && showing_autosuggestion s then
        lift (accept_autosuggestion E) ;;; ret false
      else if is_char c "r" then lift (search E false) ;;; ret false
      else if is_char c "s" then lift (search E true) ;;; ret false
      else other
    | KChar c =>
      if N.eqb c c_tab then lift (complete E) ;;; ret false
      else if N.eqb c c_nl then lift (handle_newline E)
      else other
    | KRight =>
      if showing_autosuggestion s then
        at_end <- (fun st => match cursor_is_at_end_of_line s with
                             | Val b => ORet b st
                             | Pan p => OPanic p
                             end) ;;
        if at_end : bool then lift (accept_autosuggestion E) ;;; ret false else other
      else other
    | _ => other
    end) ;;
  (if e_wok E then ret done else fail EOther).

(** * Emacs *)

(** src/keymap/emacs.rs:16-19 [struct Emacs] *)
Record emacs := mkEmacs { last_arg_fetch_index : option nat }.
Definition emacs_new : emacs := mkEmacs None.

(** src/keymap/emacs.rs:134-173 [emacs_move_word]; [right] is the direction *)
Definition emacs_move_word (E : env) (right_ : bool) : ME unit :=
  s <- get ;;
  ' (words, pos) <- liftr (get_words_and_cursor_position E s) ;;
  wi <- (match pos with
         | InWord i => ret (Some i)
         | OnWordLeftEdge i => ret (Some (if (0 <? i) && negb right_ then i - 1 else i))
         | OnWordRightEdge i =>
           m <- liftr (sub_chk (length words) 1) ;;
           ret (Some (if (i <? m) && right_ then i + 1 else i))
         | InSpace l r => ret (if right_ then r else l)
         end) ;;
  match wi with
  | None => ret tt
  | Some i =>
    match nth_error words i with
    | None => pan PUnwrap
    | Some (start, end_) => move_cursor_to E (if right_ then end_ else start)
    end
  end.

(** src/keymap/emacs.rs:63-96 [handle_last_arg_fetch] *)
Definition handle_last_arg_fetch (E : env) : MK emacs unit :=
  s <- gete ;;
  if hist_is_empty (ed_history s) then ret tt
  else
    k <- getk ;;
    hi <- (match last_arg_fetch_index k with
           | Some O => ret None
           | Some (S x) => ret (Some x)
           | None =>
             m <- liftr (sub_chk (hist_len (ed_history s)) 1) ;;
             ret (Some (match ed_loc s with Some i => i | None => m end))
           end) ;;
    match hi with
    | None => ret tt
    | Some history_index =>
      match last_arg_fetch_index k with
      | Some _ =>
        b <- lift get_cur ;;
        match last_arg b with
        | Some a =>
          pos <- liftr (sub_chk (num_chars b) (length a)) ;;
          lift (delete_until E pos)
        | None => ret tt
        end
      | None => ret tt
      end ;;;
      s <- gete ;;
      hb <- liftr (hist_get (ed_history s) history_index) ;;
      match last_arg hb with
      | Some a => lift (insert_chars_after_cursor E a)
      | None => ret tt
      end ;;;
      modk (fun _ => mkEmacs (Some history_index))
    end.

(** src/keymap/emacs.rs:26-45 [handle_ctrl_key] *)
Definition emacs_ctrl (E : env) (c : char) : ME unit :=
  if is_char c "l" then clear E
  else if is_char c "a" then move_cursor_to_start_of_line E
  else if is_char c "e" then move_cursor_to_end_of_line E
  else if is_char c "b" then move_cursor_left E 1
  else if is_char c "f" then move_cursor_right E 1
  else if is_char c "d" then delete_after_cursor E
  else if is_char c "p" then move_up E
  else if is_char c "n" then move_down E
  else if is_char c "u" then delete_all_before_cursor E
  else if is_char c "k" then delete_all_after_cursor E
  else if is_char c "w" then delete_word_before_cursor E true
  else if is_char c "x" then (ed_undo E ;;; ret tt)
  else ret tt.

(** src/keymap/emacs.rs:47-61 [handle_alt_key] *)
Definition emacs_alt (E : env) (c : char) : MK emacs unit :=
  if is_char c "<" then lift (move_to_start_of_history E)
  else if is_char c ">" then lift (move_to_end_of_history E)
  else if N.eqb c c_del then lift (delete_word_before_cursor E true)
  else if is_char c "f" then lift (emacs_move_word E true)
  else if is_char c "b" then lift (emacs_move_word E false)
  else if is_char c "r" then (lift (ed_revert E) ;;; ret tt)
  else if is_char c "." then handle_last_arg_fetch E
  else ret tt.

(** src/keymap/emacs.rs:100-125 [handle_key_core] *)
Definition emacs_core (E : env) (k : key) : MK emacs unit :=
  (match k with
   | KAlt c => if is_char c "." then ret tt else modk (fun _ => mkEmacs None)
   | _ => modk (fun _ => mkEmacs None)
   end) ;;;
  match k with
  | KChar c => lift (insert_after_cursor E c)
  | KAlt c => emacs_alt E c
  | KCtrl c => lift (emacs_ctrl E c)
  | KLeft => lift (move_cursor_left E 1)
  | KRight => lift (move_cursor_right E 1)
  | KUp => lift (move_up E)
  | KDown => lift (move_down E)
  | KHome => lift (move_cursor_to_start_of_line E)
  | KEnd => lift (move_cursor_to_end_of_line E)
  | KBackspace => lift (delete_before_cursor E)
  | KDelete => lift (delete_after_cursor E)
  | KNull | KEsc | KOther _ => ret tt
  end.

Definition emacs_key := handle_key emacs_core.

(** src/context.rs:194-216 the loop of [handle_keys] over the keys the terminal
    delivers (each with the surroundings at that moment); the answer says
    whether the line was finished, the end of the list is [next_key() = None].
    [Ok(ed.into())] is [ed_result] of the final state in both cases. *)
Fixpoint run_keys {K} (core : env -> key -> MK K unit) (keys : list (env * key)) : MK K bool :=
  match keys with
  | [] => ret false
  | (E, k) :: keys' =>
    done <- handle_key core E k ;;
    if done : bool then ret true else run_keys core keys'
  end.

(** src/context.rs:171-192 [read_line_with_init_buffer] for a key map with
    initial state [k0] and [init] hook; the outcome carries the line. *)
Definition read_line {K} (core : env -> key -> MK K unit) (k0 : K) (init : env -> MK K unit)
           (E : env) (p : prompt_t) (f : option (text -> text)) (ib : buffer)
           (h : history) (w : fs) (cb ttys : list tok) (keys : list (env * key))
  : out (K * ed) text :=
  match editor_new E p f ib h w cb ttys with
  | ORet _ s =>
    (init E ;;;
     run_keys core keys ;;;
     s <- gete ;;
     liftr (ed_result s)) (k0, s)
  | OErr e s => OErr e (k0, s)
  | OPanic q => OPanic q
  | OFuel => OFuel
  end.

Definition emacs_read_line := read_line emacs_core emacs_new (fun _ => ret tt).
