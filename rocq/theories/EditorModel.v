(** Model of src/editor.rs: the [Editor] methods. *)
From Verif Require Import Base Utf8 BufferModel UtilModel HistoryModel EditorState.
Local Open Scope monad_scope.

Definition ME := M ed.

(** * Current buffer *)

(** src/editor.rs:240-248 [cur_buf!] *)
Definition cur_buf (s : ed) : res buffer :=
  match ed_loc s with
  | Some i => if ed_hvalid s then Val (ed_hist s) else hist_get (ed_history s) i
  | None => Val (ed_new s)
  end.

(** src/editor.rs:224-238 [cur_buf_mut!] up to taking the reference *)
Definition cur_prep : ME unit := fun s =>
  let s := set_changed true s in
  match ed_loc s with
  | Some i =>
    if ed_hvalid s then ORet tt s
    else match hist_get (ed_history s) i with
         | Pan p => OPanic p
         | Val b =>
           match copy_buffer (ed_hist s) b with
           | Pan p => OPanic p
           | Val hb => ORet tt (set_hvalid true (set_hist hb s))
           end
         end
  | None => ORet tt s
  end.

(** Applying a mutating buffer method to the buffer [cur_buf_mut!] gives. *)
Definition cur_upd {A} (f : buffer -> res (A * buffer)) : ME A := fun s =>
  match ed_loc s with
  | Some _ =>
    match f (ed_hist s) with Pan p => OPanic p | Val (a, b) => ORet a (set_hist b s) end
  | None =>
    match f (ed_new s) with Pan p => OPanic p | Val (a, b) => ORet a (set_new b s) end
  end.

Definition with_cur_mut {A} (f : buffer -> res (A * buffer)) : ME A :=
  cur_prep ;;; cur_upd f.

Definition unit_op (f : buffer -> res buffer) : buffer -> res (unit * buffer) :=
  fun b => rbind (f b) (fun b' => Val (tt, b')).
Definition pure_op (f : buffer -> buffer) : buffer -> res (unit * buffer) :=
  fun b => Val (tt, f b).

Definition get_cur : ME buffer := fun s => match cur_buf s with Val b => ORet b s | Pan p => OPanic p end.

(** * Search state *)

(** src/editor.rs:309-311 [is_search] *)
Definition is_search (s : ed) : bool := ed_rev s || ed_fwd s.

(** src/editor.rs:313-318 [clear_search] *)
Definition clear_search (s : ed) : ed :=
  set_subset [] (set_subloc None (set_fwd false (set_rev false s))).

(** src/editor.rs:378-381 [search_history_loc] *)
Definition search_history_loc (s : ed) : option nat :=
  match ed_subloc s with Some i => nth_error (ed_subset s) i | None => None end.

(** src/editor.rs:383-388 [freshen_history] *)
Definition freshen_history (s : ed) : ed :=
  if h_share (ed_history s) && negb (ed_fresh s)
  then set_fresh true (set_history (snd (load_history (ed_fs s) (ed_history s) false)) s)
  else s.

(** src/editor.rs:401-410 the loop of [refresh_search]: new position, if any *)
Fixpoint refresh_loop (forward : bool) (target i : nat) (idx : list nat) : option nat :=
  match idx with
  | [] => None
  | l :: idx' =>
    if target <=? l
    then if forward || (target =? l) || (i =? 0) then Some i else Some (i - 1)
    else refresh_loop forward target (S i) idx'
  end.

(** src/editor.rs:391-421 [refresh_search] *)
Definition refresh_search (forward : bool) (s : ed) : ed :=
  let old := search_history_loc s in
  let idx := search_index (ed_history s) (ed_new s) in
  let loc :=
    match idx with
    | [] => None
    | _ =>
      let dflt := if forward then Some 0 else Some (length idx - 1) in
      match old with
      | Some target =>
        match refresh_loop forward target 0 idx with Some i => Some i | None => dflt end
      | None => dflt
      end
    end in
  set_changed false (set_hvalid false (set_loc None (set_fwd forward (set_rev (negb forward)
    (set_subloc loc (set_subset idx s)))))).

(** src/editor.rs:937-957 [current_autosuggestion] *)
Definition current_autosuggestion (s : ed) : res (option buffer) :=
  if ed_hvalid s then Val None
  else
    let at_ i := rbind (hist_get (ed_history s) i) (fun b => Val (Some b)) in
    if is_search s then
      match search_history_loc s with Some i => at_ i | None => Val None end
    else if ed_showauto s then
      match ed_loc s with
      | Some i => at_ i
      | None =>
        match get_newest_match (ed_history s) (Some (hist_len (ed_history s))) (ed_new s) with
        | Some i => at_ i
        | None => Val None
        end
      end
    else Val None.

(** * Display *)

Definition u16_of (n : nat) : N := (N.of_nat n mod 65536)%N.

(** src/editor.rs:994-1006 [calc_width] *)
Definition calc_width (prompt_width : nat) (buf_widths : list nat) (tw : nat) : nat :=
  fold_left (fun total line =>
    let total' := if negb (total mod tw =? 0) then (total / tw + 1) * tw else total in
    total' + (prompt_width + line)) buf_widths 0.

(** src/editor.rs:964-991 [search_prompt].  Colors: Red 1, Green 2. *)
Definition search_prompt (U : unicode) (s : ed) : res (text * nat) :=
  if is_search s then
    let '(hplace, color) :=
      match ed_subset s with
      | [] => (0, fg_str 1)
      | _ => (match ed_subloc s with Some p => p | None => 0 end + 1, fg_str 2)
      end in
    let prefix := pr_prefix (ed_prompt s) in
    rbind (cur_buf s) (fun b =>
      Val (prefix ++ str "(search)'" ++ color ++ data b ++ fg_reset ++ str "` ("
             ++ decimal (N.of_nat hplace) ++ str "/"
             ++ decimal (N.of_nat (length (ed_subset s))) ++ str "): ",
           u_striplen U prefix + 9))
  else Val (pr_string (ed_prompt s), 0).

(** [write!("{:<1$}", com, width)]: left-aligned, padded with spaces to at
    least [width] characters *)
Definition pad (com : text) (width : nat) : text := com ++ repeat c_sp (width - length com).

(** src/editor.rs:500-503: column width and number of columns *)
Definition completion_cols (w : nat) (completions : list text) : nat * nat :=
  let max_word := fold_left (fun m x => Nat.max m (length x)) completions 1 in
  let cols := Nat.max 1 (w / max_word) in
  let col_width := 2 + w / cols in
  (col_width, Nat.max 1 (w / col_width)).

(** src/editor.rs:507-537 the loop of [print_completion_list].  The
    [unreachable!()] branch for [i > cols] is kept. *)
Fixpoint print_comps (col_width cols i index : nat) (hl : option nat) (l : list text)
  : res (list tok) :=
  match l with
  | [] => Val []
  | com :: l' =>
    let emit (i : nat) (pre : list tok) :=
      let high := match hl with Some h => index =? h | None => false end in
      let body := TStr (pad com col_width) in
      let item := if high then [TFg 0; TBg 7; body; TBgReset; TFgReset] else [body] in
      rbind (print_comps col_width cols (S i) (S index) hl l')
            (fun r => Val (pre ++ item ++ r)) in
    if i =? cols then emit 0 [TCRLF]
    else if cols <? i then Pan PUnreach
    else emit i []
  end.

(** src/editor.rs:490-540 [print_completion_list]: tokens and the number of
    lines it reports. [w] is the raw column count of termion. *)
Definition print_completion_list (w : nat) (completions : list text) (hl : option nat)
  : res (list tok * nat) :=
  let '(col_width, cols) := completion_cols w completions in
  rbind (print_comps col_width cols 0 0 hl completions)
        (fun toks => Val (toks, length completions / cols)).

(** src/editor.rs:1082-1121 the loop printing the lines: [i] index, [n] number
    of lines, [rem] [buf_num_remaining_bytes].  Yellow is color 3. *)
Fixpoint print_lines (srch : bool) (clos : option (text -> text)) (pw : nat)
         (i n rem : nat) (lines : list text) : res (list tok) :=
  match lines with
  | [] => Val []
  | line :: lines' =>
    let pre := if 0 <? i then [TRight (u16_of pw)] else [] in
    let fin := if S i <? n then [TCRLF] else [] in
    let apply t := match clos with Some f => f t | None => t end in
    if rem =? 0 then
      rbind (print_lines srch clos pw (S i) n 0 lines') (fun r =>
        Val (pre ++ TStr line :: fin ++ r))
    else if rem <? blen line then
      rbind (bsplit line rem) (fun '(start, rest) =>
        rbind (print_lines srch clos pw (S i) n 0 lines') (fun r =>
          Val (pre ++ (if srch then [TFg 3] else []) ++ [TStr (apply start)]
                   ++ (if srch then [] else [TFg 3]) ++ [TStr rest] ++ fin ++ r)))
    else
      rbind (print_lines srch clos pw (S i) n (rem - blen line) lines') (fun r =>
        Val (pre ++ (if srch then [TFg 3] else []) ++ [TStr (apply line)] ++ fin ++ r))
  end.

(** src/editor.rs:1015-1024: the cursor is brought back into the buffer *)
Definition clamp_cursor (noeol : bool) (len cursor : nat) : nat :=
  let c := if len <? cursor then len else cursor in
  if noeol && negb (c =? 0) && (c =? len) then c - 1 else c.

(** src/editor.rs:1027-1157: everything [display_impl] computes from the
    (already clamped) editor state: the tokens and the new
    [term_cursor_line].  [tw] is the terminal width, [w] the raw width. *)
Definition display_render (U : unicode) (show : bool) (tw w : nat) (prompt : text)
           (rev_pw : nat) (buf : buffer) (s : ed) : res (list tok * nat) :=
  let pw := last_prompt_line_width U prompt in
  rbind (buf_width U buf) (fun own_width =>
  rbind (match ed_sugg s with Some g => BufferModel.buf_width U g | None => Val own_width end) (fun buf_widths =>
  rbind (match ed_sugg s with
         | Some g => if ed_cursor s <? num_chars g then range_width U g 0 (ed_cursor s)
                     else range_width U buf 0 (ed_cursor s)
         | None => range_width U buf 0 (ed_cursor s)
         end) (fun to_cursor =>
  let total := calc_width pw buf_widths tw in
  let total_c := if is_search s then calc_width rev_pw to_cursor tw
                 else calc_width pw to_cursor tw in
  let num_lines := (total + tw) / tw in
  rbind (if 1 <? ed_tcl s
         then (let k := u16_of (ed_tcl s) in
               if (k =? 0)%N then Pan PU16 else Val [TUp (k - 1)])
         else Val []) (fun t_up =>
  rbind (match ed_hint s with
         | Some (comps, i) =>
           rbind (print_completion_list w comps i) (fun '(t, l) => Val (t ++ [TCRLF], 1 + l))
         | None => Val ([], 0)
         end) (fun '(t_comp, comp_lines) =>
  let lines := match ed_sugg s with
               | Some g => if show then buf_lines g else buf_lines buf
               | None => buf_lines buf
               end in
  rbind (print_lines (is_search s) (ed_closure s) pw 0 (length lines) (num_bytes buf) lines)
        (fun t_lines =>
  let t_reset := match ed_sugg s with
                 | Some _ => [TFgReset]
                 | None => if is_search s then [TFgReset] else []
                 end in
  let t_eol := if total mod tw =? 0 then [TCRLF] else [] in
  let tcl := (total_c + tw) / tw in
  rbind (if tcl <? num_lines then Val [TUp (u16_of (num_lines - tcl))]
         else if num_lines <? tcl then Pan PUnreach else Val []) (fun t_up2 =>
  let col := (Z.of_nat total - Z.of_nat total_c
              - (Z.of_nat num_lines - Z.of_nat tcl) * Z.of_nat tw)%Z in
  let t_col := if (0 <? col)%Z then [TLeft (u16_of (Z.to_nat col))]
               else if (col <? 0)%Z then [TRight (u16_of (Z.to_nat (- col)))] else [] in
  Val ([TModes] ++ t_up ++ [TCR; TClearAfter] ++ t_comp ++ [TStr prompt] ++ t_lines
         ++ t_reset ++ t_eol ++ t_up2 ++ t_col,
       tcl + comp_lines)))))))).

(** src/editor.rs:1158-1165: the output goes to the context (which cannot
    fail) and then to the terminal *)
Definition emit (E : env) (toks : list tok) : ME unit := fun s =>
  let s := set_cbuf (ed_cbuf s ++ toks) s in
  if e_wok E then ORet tt (set_tty (ed_tty s ++ toks) s) else OErr EOther s.

(** [terminal_mut().write_all(..)] *)
Definition tty_write (E : env) (toks : list tok) : ME unit := fun s =>
  if e_wok E then ORet tt (set_tty (ed_tty s ++ toks) s) else OErr EOther s.

(** src/editor.rs:993-1165 [display_impl].  The assignment of
    [term_cursor_line] happens before the [unreachable!()]; as a panic ends the
    session the difference cannot be observed. *)
Definition display_impl (E : env) (show : bool) : ME unit :=
  s <- get ;;
  ' (prompt, rev_pw) <- liftr (search_prompt (e_uni E) s) ;;
  match e_size E, terminal_width (e_size E) with
  | Some w, Some tw =>
    buf <- get_cur ;;
    modify (fun s => set_cursor (clamp_cursor (ed_noeol s) (num_chars buf) (ed_cursor s)) s) ;;;
    s <- get ;;
    ' (toks, tcl) <- liftr (display_render (e_uni E) show tw w prompt rev_pw buf s) ;;
    modify (set_tcl tcl) ;;;
    emit E toks
  | _, _ => fail EOther
  end.

(** src/editor.rs:1168-1177 [display] *)
Definition display (E : env) : ME unit :=
  s <- get ;;
  when (is_search s && ed_changed s) (modify (refresh_search (ed_fwd s))) ;;;
  s <- get ;;
  g <- liftr (current_autosuggestion s) ;;
  modify (set_sugg g) ;;;
  display_impl E true.

(** * Cursor movement *)

(** src/editor.rs:890-893 [move_cursor_to_end_of_line] *)
Definition move_cursor_to_end_of_line (E : env) : ME unit :=
  b <- get_cur ;; modify (set_cursor (num_chars b)) ;;; display E.

(** src/editor.rs:884-887 [move_cursor_to_start_of_line] *)
Definition move_cursor_to_start_of_line (E : env) : ME unit :=
  modify (set_cursor 0) ;;; display E.

(** src/editor.rs:874-881 [move_cursor_to] *)
Definition move_cursor_to (E : env) (pos : nat) : ME unit :=
  b <- get_cur ;;
  modify (set_cursor (if num_chars b <? pos then num_chars b else pos)) ;;; display E.

(** src/editor.rs:847-855 [move_cursor_left] *)
Definition move_cursor_left (E : env) (count : nat) : ME unit :=
  modify (fun s => set_cursor
    (ed_cursor s - (if ed_cursor s <? count then ed_cursor s else count)) s) ;;;
  display E.

(** src/editor.rs:859-871 [move_cursor_right] *)
Definition move_cursor_right (E : env) (count : nat) : ME unit :=
  b <- get_cur ;;
  s <- get ;;
  room <- liftr (sub_chk (num_chars b) (ed_cursor s)) ;;
  modify (fun s => set_cursor (ed_cursor s + (if room <? count then room else count)) s) ;;;
  display E.

(** src/editor.rs:895-902 [cursor_is_at_end_of_line] *)
Definition cursor_is_at_end_of_line (s : ed) : res bool :=
  rbind (cur_buf s) (fun b =>
    if ed_noeol s then rbind (sub_chk (num_chars b) 1) (fun k => Val (ed_cursor s =? k))
    else Val (ed_cursor s =? num_chars b)).

(** * Insertion and deletion *)

(** src/editor.rs:768-776 [insert_chars_after_cursor]; 757-767
    [insert_str_after_cursor], [insert_after_cursor] call it *)
Definition insert_chars_after_cursor (E : env) (cs : text) : ME unit :=
  c <- gets ed_cursor ;;
  with_cur_mut (unit_op (fun b => buf_insert b c cs)) ;;;
  modify (fun s => set_cursor (ed_cursor s + length cs) s) ;;;
  display E.
Definition insert_str_after_cursor := insert_chars_after_cursor.
Definition insert_after_cursor (E : env) (c : char) : ME unit := insert_chars_after_cursor E [c].

(** src/editor.rs:780-788 [delete_before_cursor] *)
Definition delete_before_cursor (E : env) : ME unit :=
  c <- gets ed_cursor ;;
  when (0 <? c) (
    with_cur_mut (fun b => buf_remove b (c - 1) c) ;;;
    modify (set_cursor (c - 1))) ;;;
  display E.

(** src/editor.rs:792-801 [delete_after_cursor] *)
Definition delete_after_cursor (E : env) : ME unit :=
  c <- gets ed_cursor ;;
  with_cur_mut (fun b =>
    if c <? num_chars b then rbind (buf_remove b c (c + 1)) (fun '(_, b') => Val (tt, b'))
    else Val (tt, b)) ;;;
  display E.

(** src/editor.rs:804-808 [delete_all_before_cursor] *)
Definition delete_all_before_cursor (E : env) : ME unit :=
  c <- gets ed_cursor ;;
  with_cur_mut (fun b => buf_remove b 0 c) ;;;
  modify (set_cursor 0) ;;; display E.

(** src/editor.rs:811-817 [delete_all_after_cursor] *)
Definition delete_all_after_cursor (E : env) : ME unit :=
  c <- gets ed_cursor ;;
  with_cur_mut (unit_op (fun b => buf_truncate b c)) ;;; display E.

(** src/editor.rs:820-830 [delete_until] *)
Definition delete_until (E : env) (pos : nat) : ME unit :=
  c <- gets ed_cursor ;;
  with_cur_mut (fun b => buf_remove b (Nat.min c pos) (Nat.max c pos)) ;;;
  modify (set_cursor (Nat.min c pos)) ;;; display E.

(** src/editor.rs:833-843 [delete_until_inclusive] *)
Definition delete_until_inclusive (E : env) (pos : nat) : ME unit :=
  c <- gets ed_cursor ;;
  with_cur_mut (fun b => buf_remove b (Nat.min c pos) (Nat.max (c + 1) (pos + 1))) ;;;
  modify (set_cursor (Nat.min c pos)) ;;; display E.

(** src/editor.rs:325-329 [get_words_and_cursor_position] *)
Definition get_words_and_cursor_position (E : env) (s : ed) : res (list (nat * nat) * cpos) :=
  rbind (cur_buf s) (fun b =>
    let words := e_words E (data b) in
    rbind (cpos_get (ed_cursor s) words) (fun pos => Val (words, pos))).

(** src/editor.rs:615-636 [get_word_before_cursor] *)
Definition get_word_before_cursor (E : env) (ignore_space : bool) (s : ed)
  : res (option (nat * nat)) :=
  rbind (get_words_and_cursor_position E s) (fun '(words, pos) =>
    Val (match pos with
         | InWord i => nth_error words i
         | InSpace (Some i) _ => if ignore_space then nth_error words i else None
         | InSpace None _ => None
         | OnWordLeftEdge i =>
           if ignore_space && (0 <? i) then nth_error words (i - 1) else None
         | OnWordRightEdge i => nth_error words i
         end)).

(** src/editor.rs:643-652 [delete_word_before_cursor] *)
Definition delete_word_before_cursor (E : env) (ignore_space : bool) : ME unit :=
  s <- get ;;
  w <- liftr (get_word_before_cursor E ignore_space s) ;;
  match w with
  | Some (start, _) =>
    moved <- with_cur_mut (fun b => buf_remove b start (ed_cursor s)) ;;
    c <- liftr (sub_chk (ed_cursor s) moved) ;;
    modify (set_cursor c)
  | None => ret tt
  end ;;;
  display E.

(** src/editor.rs:655-662 [clear]: the clearing codes go to the context only *)
Definition clear (E : env) : ME unit :=
  modify (fun s => clear_search (set_tcl 1 (set_cbuf (ed_cbuf s ++ [TClearAll; TGoto11]) s))) ;;;
  display E.

(** * Undo *)

(** src/editor.rs:460-488 [undo], [redo], [revert] *)
Definition undo_like (E : env) (f : buffer -> res (bool * buffer)) : ME bool :=
  did <- with_cur_mut f ;;
  (if did : bool then move_cursor_to_end_of_line E else display E) ;;;
  ret did.
Definition ed_undo (E : env) : ME bool := undo_like E buf_undo.
Definition ed_redo (E : env) : ME bool := undo_like E buf_redo.
Definition ed_revert (E : env) : ME bool := undo_like E buf_revert.

(** * History search and navigation *)

(** src/editor.rs:430-449 the step of a running [search] *)
Definition search_step (forward : bool) (s : ed) : ed :=
  let n := length (ed_subset s) in
  match ed_subset s, ed_subloc s with
  | [], _ => s
  | _, Some p =>
    set_subloc (Some (if forward then (if p <? n - 1 then p + 1 else 0)
                      else if 0 <? p then p - 1 else n - 1)) s
  | _, None => set_subloc None s
  end.

(** src/editor.rs:427-450 [search] *)
Definition search (E : env) (forward : bool) : ME unit :=
  modify (fun s =>
    if negb (is_search s) then refresh_search forward (freshen_history s)
    else search_step forward s) ;;;
  display E.

(** src/editor.rs:665-700 [move_up] *)
Definition move_up (E : env) : ME unit :=
  s <- get ;;
  if is_search s then search E false
  else
    modify (fun s => freshen_history (set_hvalid false s)) ;;;
    s <- get ;;
    (if 0 <? num_chars (ed_new s) then
       match ed_subloc s with
       | Some i =>
         if 0 <? i then
           l <- liftr (index (ed_subset s) (i - 1)) ;;
           modify (fun s => set_loc (Some l) (set_subloc (Some (i - 1)) s))
         else ret tt
       | None =>
         let sub := get_history_subset (ed_history s) (ed_new s) in
         modify (set_subset sub) ;;;
         match sub with
         | [] => ret tt
         | _ =>
           l <- liftr (index sub (length sub - 1)) ;;
           modify (fun s => set_loc (Some l) (set_subloc (Some (length sub - 1)) s))
         end
       end
     else
       match ed_loc s with
       | Some i => if 0 <? i then modify (set_loc (Some (i - 1))) else ret tt
       | None =>
         if negb (hist_is_empty (ed_history s))
         then modify (set_loc (Some (hist_len (ed_history s) - 1)))
         else ret tt
       end) ;;;
    move_cursor_to_end_of_line E.

(** src/editor.rs:703-730 [move_down] *)
Definition move_down (E : env) : ME unit :=
  s <- get ;;
  if is_search s then search E true
  else
    modify (set_hvalid false) ;;;
    s <- get ;;
    (if 0 <? num_chars (ed_new s) then
       match ed_subloc s with
       | Some i =>
         m <- liftr (sub_chk (length (ed_subset s)) 1) ;;
         if i <? m then
           l <- liftr (index (ed_subset s) (i + 1)) ;;
           modify (fun s => set_loc (Some l) (set_subloc (Some (i + 1)) s))
         else
           modify (fun s => set_fresh false (set_subset [] (set_subloc None (set_loc None s))))
       | None => ret tt
       end
     else
       modify (set_loc None) ;;;
       match ed_loc s with
       | Some i =>
         m <- liftr (sub_chk (hist_len (ed_history s)) 1) ;;
         if i <? m then modify (set_loc (Some (i + 1))) else modify (set_fresh false)
       | None => modify (set_fresh false)
       end) ;;;
    move_cursor_to_end_of_line E.

(** src/editor.rs:733-742 [move_to_start_of_history] *)
Definition move_to_start_of_history (E : env) : ME unit :=
  modify (set_hvalid false) ;;;
  s <- get ;;
  if hist_is_empty (ed_history s) then modify (set_loc None) ;;; display E
  else modify (set_loc (Some 0)) ;;; move_cursor_to_end_of_line E.

(** src/editor.rs:745-753 [move_to_end_of_history] *)
Definition move_to_end_of_history (E : env) : ME unit :=
  modify (set_hvalid false) ;;;
  s <- get ;;
  match ed_loc s with
  | Some _ => modify (set_loc None) ;;; move_cursor_to_end_of_line E
  | None => display E
  end.

(** * Autosuggestion *)

(** src/editor.rs:917-932 [accept_autosuggestion] *)
Definition accept_autosuggestion (E : env) : ME unit :=
  s <- get ;;
  when (ed_showauto s) (
    with_cur_mut (unit_op (fun b =>
      match ed_sugg s with
      | Some x => if is_search s then copy_buffer b x else insert_from_buffer b x
      | None => Val b
      end))) ;;;
  modify clear_search ;;;
  move_cursor_to_end_of_line E.

(** src/editor.rs:959-961 [is_currently_showing_autosuggestion] *)
Definition showing_autosuggestion (s : ed) : bool :=
  match ed_sugg s with Some _ => true | None => false end.

(** * Completion *)

(** [Ord for str]: byte order, which for UTF-8 is the order of code points *)
Fixpoint text_leb (a b : text) : bool :=
  match a, b with
  | [], _ => true
  | _ :: _, [] => false
  | x :: a', y :: b' => if (x <? y)%N then true else if (y <? x)%N then false else text_leb a' b'
  end.
Fixpoint insert_sorted (t : text) (l : list text) : list text :=
  match l with
  | [] => [t]
  | x :: l' => if text_leb t x then t :: l else x :: insert_sorted t l'
  end.
(** [completions.sort()] *)
Fixpoint sort_texts (l : list text) : list text :=
  match l with [] => [] | t :: l' => insert_sorted t (sort_texts l') end.
(** [completions.dedup()] *)
Fixpoint dedup_adj (l : list text) : list text :=
  match l with
  | [] => []
  | x :: l' =>
    match dedup_adj l' with
    | [] => [x]
    | y :: r => if text_eqb x y then y :: r else x :: y :: r
    end
  end.

(** src/editor.rs:542-544 [skip_completions_hint] *)
Definition skip_completions_hint (s : ed) : ed := set_hint None s.

(** src/editor.rs:546-613 [complete] *)
Definition complete (E : env) : ME unit :=
  s <- get ;;
  match ed_hint s with
  | Some (comps, i_in) =>
    modify (set_hint None) ;;;
    i <- liftr (match i_in with
                | None => Val 0
                | Some i => if length comps =? 0 then Pan PDivZero
                            else Val ((i + 1) mod length comps)
                end) ;;
    whole <- (match i_in with
              | Some x => b <- get_cur ;; c <- liftr (index comps x) ;;
                          ret (buf_eqb b (buf_of c))
              | None => ret false
              end) ;;
    (if whole : bool then
       with_cur_mut (unit_op (fun b => buf_truncate b 0)) ;;;
       modify (set_cursor 0)
     else delete_word_before_cursor E false) ;;;
    c <- liftr (index comps i) ;;
    insert_str_after_cursor E c ;;;
    modify (set_hint (Some (comps, Some i))) ;;;
    display E
  | None =>
    wr <- liftr (get_word_before_cursor E false s) ;;
    word <- with_cur_mut (fun b =>
      rbind (match wr with Some (st, en) => buf_range b st en | None => Val [] end)
            (fun w => Val (w, b))) ;;
    let completions := dedup_adj (sort_texts (e_complete E word)) in
    match completions with
    | [] => modify (set_hint None)
    | [c] =>
      modify (set_hint None) ;;;
      delete_word_before_cursor E false ;;;
      insert_str_after_cursor E c
    | _ =>
      match find_longest_common_prefix completions with
      | Some p =>
        if (blen word <? blen p) && prefixb word p then
          delete_word_before_cursor E false ;;; insert_str_after_cursor E p
        else modify (set_hint (Some (completions, None))) ;;; display E
      | None => modify (set_hint (Some (completions, None))) ;;; display E
      end
    end
  end.

(** * Enter *)

(** src/editor.rs:353-376 [handle_newline] *)
Definition handle_newline (E : env) : ME bool :=
  modify (set_fresh false) ;;;
  s <- get ;;
  when (is_search s) (accept_autosuggestion E) ;;;
  modify clear_search ;;;
  s <- get ;;
  match ed_hint s with
  | Some _ => modify (set_hint None) ;;; ret false
  | None =>
    b <- get_cur ;;
    match char_before b (ed_cursor s) with
    | Some c =>
      if N.eqb c c_bs then insert_after_cursor E c_nl ;;; ret false
      else
        modify (set_cursor (num_chars b)) ;;; display_impl E false ;;;
        tty_write E [TCRLF] ;;; modify (set_hint None) ;;; ret true
    | None =>
      modify (set_cursor (num_chars b)) ;;; display_impl E false ;;;
      tty_write E [TCRLF] ;;; modify (set_hint None) ;;; ret true
    end
  end.

(** * Construction and result *)

(** src/editor.rs:331-338 [set_prompt] *)
Definition ed_set_prompt (p : prompt_t) (s : ed) : ed :=
  let p' := match pr_vi p, pr_vi (ed_prompt s) with
            | Some v, Some old => mkPrompt (pr_prompt p) (Some (mkVis (vs_mode old) (vs_normal v) (vs_insert v)))
            | _, _ => p
            end in
  set_prompt p' s.

(** src/editor.rs:1183-1187 [set_vi_mode] *)
Definition set_vi_mode (m : vimode) (s : ed) : ed :=
  match pr_vi (ed_prompt s) with
  | Some v => set_prompt (mkPrompt (pr_prompt (ed_prompt s))
                                   (Some (mkVis m (vs_normal v) (vs_insert v)))) s
  | None => s
  end.

(** [Itertools::join] *)
Fixpoint join (sep : text) (l : list text) : text :=
  match l with
  | [] => []
  | [x] => x
  | x :: l' => x ++ sep ++ join sep l'
  end.

(** src/editor.rs:265-276: the banner, the padding and the prompt.  "⏎" is
    U+23CE. *)
Definition init_toks (width : nat) (prompt : text) : list tok :=
  [TStr [9166%N]] ++ repeat (TStr [c_sp]) width ++ [TStr (c_cr :: c_sp :: [c_cr]);
   TStr (join [c_cr; c_nl] (split_on c_nl prompt))].

(** src/editor.rs:255-307 [new_with_init_buffer].  [h], [w], [cb], [tt_] are
    what the context brings along.  A failing write fails the whole call; how
    much reached the terminal before is not modelled (the state is lost). *)
Definition editor_new (E : env) (p : prompt_t) (f : option (text -> text)) (init : buffer)
           (h : history) (w : fs) (cb ttys : list tok) : out ed unit :=
  let width := match e_ttywidth E with Some n => n | None => 80 end in
  let s0 := mkEd (mkPrompt (handle_prompt (pr_prompt p)) (pr_vi p)) f 0 init buf_new false None 1
                 None true false false false false [] None None false h w cb ttys in
  (if negb (e_wok E) then fail EOther
   else
     n <- liftr (sub_chk width 1) ;;
     tty_write E (init_toks n (pr_prompt p)) ;;;
     when (negb (buf_is_empty init)) (move_cursor_to_end_of_line E) ;;;
     display E) s0.

(** src/editor.rs:1205-1222 [From<Editor> for String] *)
Definition ed_result (s : ed) : res text := rbind (cur_buf s) (fun b => Val (buf_string b)).

(** src/editor.rs:1190-1202 [take_exec_buffer]: the text, and the state with the
    buffer it came from emptied *)
Fixpoint list_set {A} (l : list A) (i : nat) (x : A) : list A :=
  match l, i with
  | [], _ => []
  | _ :: l', O => x :: l'
  | y :: l', S i' => y :: list_set l' i' x
  end.
Definition take_exec_buffer : ME text := fun s =>
  match ed_loc s with
  | Some i =>
    if ed_hvalid s then ORet (data (ed_hist s)) (set_hist buf_new s)
    else match hist_get (ed_history s) i with
         | Pan p => OPanic p
         | Val b => ORet (data b) (set_history
                      (set_buffers (ed_history s) (list_set (buffers (ed_history s)) i buf_new)) s)
         end
  | None => ORet (data (ed_new s)) (set_new buf_new s)
  end.
