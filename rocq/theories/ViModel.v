(** Model of src/keymap/vi.rs. *)
From Verif Require Import Base Utf8 BufferModel UtilModel HistoryModel EditorState EditorModel
  KeymapModel.
Local Open Scope monad_scope.

(** src/keymap/vi.rs:9-22 [CharMovement], [MoveType] *)
Inductive cmove := RightUntil | RightAt | LeftUntil | LeftAt | RepeatMove | ReverseRepeat.
Inductive mtype := Inclusive | Exclusive.

(** src/keymap/vi.rs:26-34 [Mode] *)
Inductive vmode :=
| MInsert | MNormal | MReplace | MDelete (start : nat) | MMoveToChar (m : cmove) | MG | MTilde.

Definition is_insert (m : vmode) : bool := match m with MInsert => true | _ => false end.
Definition is_normal (m : vmode) : bool := match m with MNormal => true | _ => false end.
Definition is_tilde (m : vmode) : bool := match m with MTilde => true | _ => false end.

(** src/keymap/vi.rs:317-328 [struct Vi].  [v_stack] has its top at the head;
    the command vectors are in typing order; the u32 counters are [N] (only
    saturating operations are applied to them). *)
Record vi := mkVi {
  v_stack : list vmode;                (* mode_stack *)
  v_cur : list key;                    (* current_command *)
  v_last : list key;                   (* last_command *)
  v_curins : option key;               (* current_insert *)
  v_lastins : option key;              (* last_insert *)
  v_count : N;                         (* count *)
  v_sec : N;                           (* secondary_count *)
  v_lcount : N;                        (* last_count *)
  v_reset : bool;                      (* movement_reset *)
  v_lcm : option (char * cmove)        (* last_char_movement *)
}.

Definition vset_stack (x : list vmode) (v : vi) : vi :=
  mkVi x (v_cur v) (v_last v) (v_curins v) (v_lastins v) (v_count v) (v_sec v) (v_lcount v) (v_reset v) (v_lcm v).
Definition vset_cur (x : list key) (v : vi) : vi :=
  mkVi (v_stack v) x (v_last v) (v_curins v) (v_lastins v) (v_count v) (v_sec v) (v_lcount v) (v_reset v) (v_lcm v).
Definition vset_last (x : list key) (v : vi) : vi :=
  mkVi (v_stack v) (v_cur v) x (v_curins v) (v_lastins v) (v_count v) (v_sec v) (v_lcount v) (v_reset v) (v_lcm v).
Definition vset_curins (x : option key) (v : vi) : vi :=
  mkVi (v_stack v) (v_cur v) (v_last v) x (v_lastins v) (v_count v) (v_sec v) (v_lcount v) (v_reset v) (v_lcm v).
Definition vset_lastins (x : option key) (v : vi) : vi :=
  mkVi (v_stack v) (v_cur v) (v_last v) (v_curins v) x (v_count v) (v_sec v) (v_lcount v) (v_reset v) (v_lcm v).
Definition vset_count (x : N) (v : vi) : vi :=
  mkVi (v_stack v) (v_cur v) (v_last v) (v_curins v) (v_lastins v) x (v_sec v) (v_lcount v) (v_reset v) (v_lcm v).
Definition vset_sec (x : N) (v : vi) : vi :=
  mkVi (v_stack v) (v_cur v) (v_last v) (v_curins v) (v_lastins v) (v_count v) x (v_lcount v) (v_reset v) (v_lcm v).
Definition vset_lcount (x : N) (v : vi) : vi :=
  mkVi (v_stack v) (v_cur v) (v_last v) (v_curins v) (v_lastins v) (v_count v) (v_sec v) x (v_reset v) (v_lcm v).
Definition vset_reset (x : bool) (v : vi) : vi :=
  mkVi (v_stack v) (v_cur v) (v_last v) (v_curins v) (v_lastins v) (v_count v) (v_sec v) (v_lcount v) x (v_lcm v).
Definition vset_lcm (x : option (char * cmove)) (v : vi) : vi :=
  mkVi (v_stack v) (v_cur v) (v_last v) (v_curins v) (v_lastins v) (v_count v) (v_sec v) (v_lcount v) (v_reset v) x.

(** src/keymap/vi.rs:331-345 [default] *)
Definition vi_new : vi :=
  mkVi [MInsert] [] [] None (Some (KChar (ch "i"))) 0 0 0 false None.

(** src/keymap/vi.rs:46-48, 353-355 [mode] *)
Definition vmode_of (v : vi) : vmode := match v_stack v with [] => MNormal | m :: _ => m end.

(** src/keymap/vi.rs:60-62 [pop] *)
Definition vpop (v : vi) : vmode * vi :=
  match v_stack v with [] => (MNormal, v) | m :: st => (m, vset_stack st v) end.

Definition MV := MK vi.

Definition kch (x : String.string) : key := KChar (ch x).
Arguments kch x%string.
Definition kis (k : key) (x : String.string) : bool :=
  match k with KChar c => is_char c x | _ => false end.
Arguments kis k x%string.

(** src/keymap/vi.rs:65-92 [is_movement_key] *)
Definition is_movement_key (k : key) : bool :=
  match k with
  | KLeft | KRight | KBackspace | KHome | KEnd => true
  | KChar c => existsb (N.eqb c) (str "hlwWbBeEg ^$tfTF;,")
  | _ => false
  end.

(** * Word motions: pure functions of the text *)

(** src/keymap/vi.rs:107-132 [move_cursor], hence [advance] ([go_back] is the
    same with the direction flipped); [None] is the answer false *)
Definition advance (right_ : bool) (cursor max : nat) : option nat :=
  if right_ then (if cursor =? max then None else Some (cursor + 1))
  else (if cursor =? 0 then None else Some (cursor - 1)).
Definition go_back (right_ : bool) (cursor max : nat) : nat :=
  match advance (negb right_) cursor max with Some c => c | None => cursor end.

(** src/keymap/vi.rs:136-138 [is_vi_keyword] *)
Definition is_vi_keyword (U : unicode) (c : char) : bool := is_char c "_" || u_alnum U c.

(** src/keymap/vi.rs:165-169 [State] of [vi_move_word] *)
Inductive wstate := WSpace | WKeyword | WNonKeyword.

(** src/keymap/vi.rs:183-205 the [while advance] loop: the new cursor, and
    whether the outer loop goes on.  [ws] is [move_mode == Whitespace].  Every
    round moves the cursor by one towards an end of the text, so the fuel given
    by [move_word_once] is never used up (lemmas in ViMotion.v). *)
Fixpoint mw_loop (U : unicode) (fuel : nat) (ws right_ : bool) (t : text) (cursor : nat)
         (st : wstate) : nat * bool :=
  match fuel with
  | O => (cursor, true)
  | S f =>
    match advance right_ cursor (length t) with
    | None => (cursor, true)
    | Some cursor' =>
      match nth_error t cursor' with
      | None => (cursor', false)
      | Some c =>
        match st with
        | WSpace =>
          if u_white U c then mw_loop U f ws right_ t cursor' WSpace else (cursor', true)
        | WKeyword =>
          if u_white U c then mw_loop U f ws right_ t cursor' WSpace
          else if negb ws && negb (is_vi_keyword U c) then (cursor', true)
          else mw_loop U f ws right_ t cursor' WKeyword
        | WNonKeyword =>
          if u_white U c then mw_loop U f ws right_ t cursor' WSpace
          else if negb ws && is_vi_keyword U c then (cursor', true)
          else mw_loop U f ws right_ t cursor' WNonKeyword
        end
      end
    end
  end.

(** src/keymap/vi.rs:172-206 one round of the ['repeat] loop *)
Definition move_word_once (U : unicode) (ws right_ : bool) (t : text) (cursor : nat)
  : nat * bool :=
  match nth_error t cursor with
  | None => (cursor, false)
  | Some c =>
    let st := if u_white U c then WSpace else if is_vi_keyword U c then WKeyword else WNonKeyword in
    mw_loop U (S (cursor + length t)) ws right_ t cursor st
  end.

(** src/keymap/vi.rs:233-238 [State] of [vi_move_word_end] *)
Inductive estate := ESpace | EOnWord | EOnOther | EOnSpace.

(** src/keymap/vi.rs:245-283 the [while advance] loop *)
Fixpoint mwe_loop (U : unicode) (fuel : nat) (ws right_ : bool) (t : text) (cursor : nat)
         (st : estate) : nat * bool :=
  match fuel with
  | O => (cursor, true)
  | S f =>
    match advance right_ cursor (length t) with
    | None => (cursor, true)
    | Some cursor' =>
      match nth_error t cursor' with
      | None => (cursor', false)
      | Some c =>
        let back := (go_back right_ cursor' (length t), true) in
        match st with
        | ESpace =>
          mwe_loop U f ws right_ t cursor'
            (if u_white U c then ESpace
             else if negb ws && is_vi_keyword U c then EOnWord
             else if ws then EOnSpace else EOnOther)
        | EOnWord =>
          if negb (is_vi_keyword U c) then back else mwe_loop U f ws right_ t cursor' EOnWord
        | EOnSpace =>
          if u_white U c then back else mwe_loop U f ws right_ t cursor' EOnSpace
        | EOnOther =>
          if u_white U c || is_vi_keyword U c then back
          else mwe_loop U f ws right_ t cursor' EOnOther
        end
      end
    end
  end.
Definition move_word_end_once (U : unicode) (ws right_ : bool) (t : text) (cursor : nat)
  : nat * bool :=
  mwe_loop U (S (cursor + length t)) ws right_ t cursor ESpace.

(** ['repeat: for _ in 0..count]: the loop over a cursor position *)
Definition repeat_pos (count : N) (step : nat -> nat * bool) (cursor : nat) : nat :=
  match Nloop count (fun c => let '(c', go) := step c in ORet go c') cursor with
  | ORet _ c => c
  | _ => cursor
  end.

(** src/keymap/vi.rs:159-209 [vi_move_word] *)
Definition vi_move_word (E : env) (ws right_ : bool) (count : N) : ME unit :=
  c <- gets ed_cursor ;;
  b <- get_cur ;;
  move_cursor_to E (repeat_pos count (move_word_once (e_uni E) ws right_ (data b)) c).

(** src/keymap/vi.rs:227-286 [vi_move_word_end] *)
Definition vi_move_word_end (E : env) (ws right_ : bool) (count : N) : ME unit :=
  c <- gets ed_cursor ;;
  b <- get_cur ;;
  move_cursor_to E (repeat_pos count (move_word_end_once (e_uni E) ws right_ (data b)) c).

(** [.filter(c == ch).nth(count - 1)]: the positions of [c], then the
    [count]-th; the guard only avoids converting huge counts *)
Fixpoint positions (c : char) (i : nat) (t : text) : list nat :=
  match t with
  | [] => []
  | x :: t' => if N.eqb x c then i :: positions c (S i) t' else positions c (S i) t'
  end.
Definition nth_big (l : list nat) (count : N) : option nat :=
  if (N.of_nat (length l) <? count)%N then None else nth_error l (N.to_nat count - 1).

(** src/keymap/vi.rs:288-296 [find_char] *)
Definition find_char (t : text) (start : nat) (c : char) (count : N) : res (option nat) :=
  if (count =? 0)%N then Pan PAssert
  else Val (nth_big (positions c start (skipn start t)) count).

(** src/keymap/vi.rs:298-308 [find_char_rev] *)
Definition find_char_rev (t : text) (start : nat) (c : char) (count : N) : res (option nat) :=
  if (count =? 0)%N then Pan PAssert
  else rbind (sub_chk (length t) start) (fun _ =>
         Val (nth_big (rev (positions c 0 (firstn start t))) count)).

(** * Mode changes *)

Definition set_noeol_by (v : vi) (s : ed) : ed := set_noeol (is_normal (vmode_of v)) s.

(** src/keymap/vi.rs:368-381 [set_editor_mode] *)
Definition set_editor_mode (E : env) : MV unit :=
  v <- getk ;;
  match vmode_of v with
  | MInsert => mod_ed (set_vi_mode VPInsert) ;;; lift (display E)
  | MNormal => mod_ed (set_vi_mode VPNormal) ;;; lift (display E)
  | _ => ret tt
  end.

Definition buf_mut (f : buffer -> buffer) : MV unit := lift (with_cur_mut (pure_op f)).

(** src/keymap/vi.rs:383-399 [set_mode_preserve_last] *)
Definition set_mode_preserve_last (E : env) (m : vmode) : MV unit :=
  mod_ed (set_noeol (is_normal m)) ;;;
  modk (fun v => vset_stack (m :: v_stack v) (vset_reset (negb (is_insert m)) v)) ;;;
  set_editor_mode E ;;;
  when (is_insert m || is_tilde m) (buf_mut start_undo_group).

(** src/keymap/vi.rs:358-366 [set_mode] *)
Definition set_mode (E : env) (m : vmode) : MV unit :=
  set_mode_preserve_last E m ;;;
  when (is_insert m) (modk (fun v => vset_last [] (vset_lcount 0 v))).

(** src/keymap/vi.rs:401-445 [pop_mode_after_movement] *)
Definition pop_mode_after_movement (E : env) (mt : mtype) : MV unit :=
  v <- getk ;;
  let '(original, v1) := vpop v in
  let '(last, v2) := match vmode_of v1 with
                     | MDelete _ => vpop v1
                     | _ => (original, v1)
                     end in
  modk (fun _ => vset_reset (negb (is_insert (vmode_of v2))) v2) ;;;
  mod_ed (set_noeol (is_normal (vmode_of v2))) ;;;
  match last with
  | MDelete start =>
    lift (match mt with
          | Exclusive => delete_until E start
          | Inclusive => delete_until_inclusive E start
          end) ;;;
    modk (fun v => vset_count 0 (vset_sec 0 (vset_lcount (v_count v)
           (vset_lastins (v_curins v) (vset_cur (v_last v) (vset_last (v_cur v) v))))))
  | _ => ret tt
  end ;;;
  when (is_normal original) (modk (vset_count 0)) ;;;
  set_editor_mode E.

(** src/keymap/vi.rs:447-462 [pop_mode].  [display().unwrap()] panics on an
    error. *)
Definition pop_mode (E : env) : MV unit :=
  v <- getk ;;
  let '(last, v1) := vpop v in
  modk (fun _ => vset_reset (negb (is_insert (vmode_of v1))) v1) ;;;
  mod_ed (set_noeol (is_normal (vmode_of v1))) ;;;
  when (is_insert last || is_tilde last) (buf_mut end_undo_group) ;;;
  when (is_tilde last) (fun st =>
    match lift (display E) st with OErr _ _ => OPanic PUnwrap | o => o end) ;;;
  set_editor_mode E.

(** src/keymap/vi.rs:465-470 [normal_mode_abort] *)
Definition normal_mode_abort (E : env) : MV unit :=
  modk (fun v => vset_count 0 (vset_stack [] v)) ;;;
  mod_ed (set_noeol true) ;;;
  set_editor_mode E.

(** src/keymap/vi.rs:473-478 [move_count] *)
Definition move_count (v : vi) : N := if (v_count v =? 0)%N then 1%N else v_count v.

(** src/keymap/vi.rs:481-483 [move_count_left] *)
Definition move_count_left (v : vi) (s : ed) : nat :=
  N.to_nat (N.min (N.of_nat (ed_cursor s)) (move_count v)).

(** src/keymap/vi.rs:486-491 [move_count_right] *)
Definition move_count_right (v : vi) (s : ed) : res nat :=
  rbind (cur_buf s) (fun b =>
  rbind (sub_chk (num_chars b) (ed_cursor s)) (fun room =>
    Val (N.to_nat (N.min (N.of_nat room) (move_count v))))).
Definition mcr : MV nat :=
  v <- getk ;; s <- gete ;; liftr (move_count_right v s).

(** * Keys common to the modes *)

(** src/keymap/vi.rs:517-535 [handle_key_common] *)
Definition vi_common (E : env) (k : key) : MV unit :=
  lift (match k with
        | KCtrl c => if is_char c "l" then clear E else ret tt
        | KLeft => move_cursor_left E 1
        | KRight => move_cursor_right E 1
        | KUp => move_up E
        | KDown => move_down E
        | KHome => move_cursor_to_start_of_line E
        | KEnd => move_cursor_to_end_of_line E
        | KBackspace => delete_before_cursor E
        | KDelete => delete_after_cursor E
        | _ => ret tt
        end).

(** src/keymap/vi.rs:493-515 [repeat]; [rec] is [handle_key_core] *)
Definition vi_repeat (rec : key -> MV unit) : MV unit :=
  modk (fun v => vset_lcount (v_count v) v) ;;;
  v <- getk ;;
  let keys := v_last v in
  modk (vset_last []) ;;;
  match v_lastins v with Some ik => rec ik | None => ret tt end ;;;
  mfor keys rec ;;;
  v <- getk ;;
  match v_lastins v with Some _ => rec KEsc | None => ret tt end ;;;
  modk (vset_last keys).

(** src/keymap/vi.rs:561-568, 574-581: a key that changes text after a movement
    starts a new undo group *)
Definition insert_reset : MV unit :=
  v <- getk ;;
  when (v_reset v) (
    buf_mut end_undo_group ;;;
    buf_mut start_undo_group ;;;
    modk (fun v => vset_lastins (Some (kch "i")) (vset_reset false (vset_last [] v)))).

Definition push_last (k : key) : MV unit := modk (fun v => vset_last (v_last v ++ [k]) v).
Definition push_cur (k : key) : MV unit := modk (fun v => vset_cur (v_cur v ++ [k]) v).

(** src/keymap/vi.rs:537-610 [handle_key_insert] *)
Definition vi_insert (rec : key -> MV unit) (E : env) (k : key) : MV unit :=
  let esc :=
    v <- getk ;;
    when (0 <? v_count v)%N (
      modk (vset_lcount (v_count v)) ;;;
      Nloop (v_count v - 1) (
        v <- getk ;;
        modk (vset_last []) ;;;
        mfor (v_last v) rec ;;;
        ret true) ;;;
      modk (vset_count 0)) ;;;
    lift (move_cursor_left E 1) ;;;
    pop_mode E in
  let moved := modk (fun v => vset_reset true (vset_count 0 v)) in
  match k with
  | KEsc => esc
  | KCtrl c => if is_char c "[" then esc else vi_common E k
  | KChar c => insert_reset ;;; push_last k ;;; lift (insert_after_cursor E c)
  | KBackspace | KDelete => insert_reset ;;; push_last k ;;; vi_common E k
  | KLeft | KRight | KHome | KEnd => moved ;;; vi_common E k
  | KUp => moved ;;; buf_mut end_undo_group ;;; lift (move_up E) ;;; buf_mut start_undo_group
  | KDown => moved ;;; buf_mut end_undo_group ;;; lift (move_down E) ;;; buf_mut start_undo_group
  | _ => vi_common E k
  end.

(** src/keymap/vi.rs:957-1038 [handle_key_move_to_char] *)
Definition vi_move_to_char (E : env) (k : key) (movement : cmove) : MV unit :=
  v <- getk ;;
  let count := move_count v in
  modk (vset_count 0) ;;;
  target <- (match movement, v_lcm v, k with
    | RepeatMove, Some (c, lm), _ => ret (Some (c, lm))
    | ReverseRepeat, Some (c, LeftUntil), _ => ret (Some (c, RightUntil))
    | ReverseRepeat, Some (c, RightUntil), _ => ret (Some (c, LeftUntil))
    | ReverseRepeat, Some (c, LeftAt), _ => ret (Some (c, RightAt))
    | ReverseRepeat, Some (c, RightAt), _ => ret (Some (c, LeftAt))
    | RepeatMove, None, _ | ReverseRepeat, None, _ => normal_mode_abort E ;;; ret None
    | _, _, KChar c =>
      modk (vset_lcm (Some (c, movement))) ;;; push_cur k ;;; ret (Some (c, movement))
    | _, _, _ => normal_mode_abort E ;;; ret None
    end) ;;
  match target with
  | None => ret tt
  | Some (c, m) =>
    s <- gete ;;
    b <- lift get_cur ;;
    let go (r : res (option nat)) (adj : nat -> nat) : MV unit :=
      o <- liftr r ;;
      match o with Some i => lift (move_cursor_to E (adj i)) | None => ret tt end in
    mt <- (match m with
           | RightUntil =>
             go (find_char (data b) (ed_cursor s + 1) c count) (fun i => i - 1) ;;; ret Inclusive
           | RightAt =>
             go (find_char (data b) (ed_cursor s + 1) c count) (fun i => i) ;;; ret Inclusive
           | LeftUntil =>
             go (find_char_rev (data b) (ed_cursor s) c count) (fun i => i + 1) ;;; ret Exclusive
           | LeftAt =>
             go (find_char_rev (data b) (ed_cursor s) c count) (fun i => i) ;;; ret Exclusive
           | RepeatMove | ReverseRepeat => pan PUnreach
           end) ;;
    pop_mode_after_movement E mt
  end.

(** u32 saturating arithmetic *)
Definition u32_max : N := 4294967295%N.
Definition sat (n : N) : N := N.min n u32_max.

Definition vi_set_last1 (k : key) : vi -> vi := fun v => vset_last [k] (vset_lastins None v).

(** src/keymap/vi.rs:821-836 the body of the [~] loop *)
Definition tilde_step (E : env) : MV unit :=
  s <- gete ;;
  b <- lift get_cur ;;
  match char_after b (ed_cursor s) with
  | None => pan PUnwrap
  | Some c =>
    if u_lower (e_uni E) c then
      lift (delete_after_cursor E) ;;;
      mfor (u_toupper (e_uni E) c) (fun x => lift (insert_after_cursor E x))
    else if u_upper (e_uni E) c then
      lift (delete_after_cursor E) ;;;
      mfor (u_tolower (e_uni E) c) (fun x => lift (insert_after_cursor E x))
    else lift (move_cursor_right E 1)
  end.

(** src/keymap/vi.rs:612-863 [handle_key_normal] *)
Definition vi_normal (rec : key -> MV unit) (E : env) (k : key) : MV unit :=
  let enter := modk (vset_lastins (Some k)) ;;; set_mode E MInsert in
  let word (end_ ws right_ : bool) :=
    v <- getk ;;
    lift (if end_ then vi_move_word_end E ws right_ (move_count v)
          else vi_move_word E ws right_ (move_count v)) ;;;
    pop_mode_after_movement E Exclusive in
  let left_ :=
    v <- getk ;; s <- gete ;;
    lift (move_cursor_left E (move_count_left v s)) ;;;
    pop_mode_after_movement E Exclusive in
  let right_ :=
    n <- mcr ;; lift (move_cursor_right E n) ;;; pop_mode_after_movement E Exclusive in
  let cut :=      (* 'x' and Delete *)
    modk (fun v => vset_lcount (v_count v) (vi_set_last1 k v)) ;;;
    n <- mcr ;; s <- gete ;;
    lift (delete_until E (ed_cursor s + n)) ;;;
    modk (vset_count 0) in
  let many (m : ME bool) :=     (* 'u' and Ctrl-r *)
    v <- getk ;;
    modk (vset_count 0) ;;;
    Nloop (move_count v) (lift m) in
  match k with
  | KEsc => modk (vset_count 0)
  | KLeft | KBackspace => left_
  | KRight => right_
  | KUp => lift (move_up E) ;;; pop_mode_after_movement E Exclusive
  | KDown => lift (move_down E) ;;; pop_mode_after_movement E Exclusive
  | KDelete => cut
  | KCtrl c => if is_char c "r" then many (ed_redo E) else vi_common E k
  | KChar c =>
    if is_char c "i" then enter
    else if is_char c "a" then enter ;;; lift (move_cursor_right E 1)
    else if is_char c "A" then enter ;;; lift (move_cursor_to_end_of_line E)
    else if is_char c "I" then enter ;;; lift (move_cursor_to_start_of_line E)
    else if is_char c "s" then
      enter ;;;
      n <- mcr ;; s <- gete ;;
      lift (delete_until E (ed_cursor s + n)) ;;;
      modk (fun v => vset_count 0 (vset_lcount (v_count v) v))
    else if is_char c "r" then set_mode E MReplace
    else if is_char c "d" || is_char c "c" then
      modk (vset_cur []) ;;;
      (if is_char c "d" then modk (vset_curins None) ;;; push_cur k
       else modk (fun v => vset_cur [] (vset_curins (Some k) v)) ;;; set_mode E MInsert) ;;;
      s <- gete ;;
      set_mode E (MDelete (ed_cursor s)) ;;;
      modk (fun v => vset_count 0 (vset_sec (v_count v) v))
    else if is_char c "D" then
      modk (fun v => vset_lcount 0 (vset_count 0 (vi_set_last1 k v))) ;;;
      lift (delete_all_after_cursor E)
    else if is_char c "C" then
      modk (fun v => vset_lcount 0 (vset_count 0 (vi_set_last1 k v))) ;;;
      set_mode_preserve_last E MInsert ;;;
      lift (delete_all_after_cursor E)
    else if is_char c "." then
      modk (fun v => vset_count
        (if (v_count v =? 0)%N then (if (v_lcount v =? 0)%N then 1%N else v_lcount v)
         else v_count v) v) ;;;
      vi_repeat rec
    else if is_char c "h" then left_
    else if is_char c "l" || is_char c " " then right_
    else if is_char c "k" then lift (move_up E) ;;; pop_mode_after_movement E Exclusive
    else if is_char c "j" then lift (move_down E) ;;; pop_mode_after_movement E Exclusive
    else if is_char c "t" then set_mode E (MMoveToChar RightUntil)
    else if is_char c "T" then set_mode E (MMoveToChar LeftUntil)
    else if is_char c "f" then set_mode E (MMoveToChar RightAt)
    else if is_char c "F" then set_mode E (MMoveToChar LeftAt)
    else if is_char c ";" then vi_move_to_char E k RepeatMove
    else if is_char c "," then vi_move_to_char E k ReverseRepeat
    else if is_char c "w" then word false false true
    else if is_char c "W" then word false true true
    else if is_char c "e" then word true false true
    else if is_char c "E" then word true true true
    else if is_char c "b" then word true false false
    else if is_char c "B" then word true true false
    else if is_char c "g" then set_mode E MG
    else if ((48 <=? c) && (c <=? 57))%N then
      v <- getk ;;
      if is_char c "0" && (v_count v =? 0)%N then
        lift (move_cursor_to_start_of_line E) ;;; pop_mode_after_movement E Exclusive
      else modk (fun v => vset_count (sat (sat (v_count v * 10) + (c - 48))) v)
    else if is_char c "^" then
      lift (move_cursor_to_start_of_line E) ;;; pop_mode_after_movement E Exclusive
    else if is_char c "$" then
      lift (move_cursor_to_end_of_line E) ;;; pop_mode_after_movement E Exclusive
    else if is_char c "x" then cut
    else if is_char c "~" then
      modk (fun v => vset_lcount (v_count v) (vi_set_last1 k v)) ;;;
      set_mode E MTilde ;;;
      n <- mcr ;;
      mfor (seq 0 n) (fun _ => tilde_step E) ;;;
      pop_mode E
    else if is_char c "u" then many (ed_undo E)
    else vi_common E k
  | _ => vi_common E k
  end.

(** src/keymap/vi.rs:865-902 [handle_key_replace] *)
Definition vi_replace (E : env) (k : key) : MV unit :=
  (match k with
   | KChar c =>
     n <- mcr ;;
     v <- getk ;;
     when (N.of_nat n =? move_count v)%N (
       modk (fun v => vset_lcount (v_count v) (vset_last [kch "r"; k] (vset_lastins None v))) ;;;
       buf_mut start_undo_group ;;;
       n <- mcr ;;
       mfor (seq 0 n) (fun _ =>
         lift (delete_after_cursor E) ;;; lift (insert_after_cursor E c)) ;;;
       buf_mut end_undo_group ;;;
       lift (move_cursor_left E 1)) ;;;
     pop_mode E
   | _ => normal_mode_abort E
   end) ;;;
  modk (vset_count 0).

(** src/keymap/vi.rs:904-955 [handle_key_delete_or_change] *)
Definition vi_delete_or_change (rec : key -> MV unit) (E : env) (k : key) : MV unit :=
  v <- getk ;;
  if is_movement_key k || (kis k "0" && (v_count v =? 0)%N) then
    modk (fun v => vset_count
      (if (v_sec v =? 0)%N then v_count v
       else if (v_count v =? 0)%N then v_sec v
       else sat (v_sec v * v_count v)) v) ;;;
    push_cur k ;;;
    vi_normal rec E k
  else if (match k with KChar c => ((48 <=? c) && (c <=? 57))%N | _ => false end) then
    vi_normal rec E k
  else if (kis k "c" && (match v_curins v with Some j => kis j "c" | None => false end))
          || (kis k "d" && (match v_curins v with None => true | Some _ => false end)) then
    push_cur k ;;;
    modk (fun v => vset_sec 0 (vset_count 0 v)) ;;;
    lift (move_cursor_to_start_of_line E) ;;;
    lift (delete_all_after_cursor E) ;;;
    pop_mode E
  else normal_mode_abort E.

(** Running [f] on the key map whether [m] succeeds or fails *)
Definition finally (m : MV unit) (f : vi -> vi) : MV unit := fun st =>
  match m st with
  | ORet a (v, s) => ORet a (f v, s)
  | OErr e (v, s) => OErr e (f v, s)
  | o => o
  end.

(** src/keymap/vi.rs:1040-1065 [handle_key_g] *)
Definition vi_g (E : env) (k : key) : MV unit :=
  v <- getk ;;
  let count := move_count v in
  push_cur k ;;;
  (if kis k "e" then
     lift (vi_move_word E false false count) ;;;
     finally (pop_mode_after_movement E Inclusive) (vset_count 0)
   else if kis k "E" then
     lift (vi_move_word E true false count) ;;;
     finally (pop_mode_after_movement E Inclusive) (vset_count 0)
   else normal_mode_abort E ;;; modk (vset_count 0)).

(** src/keymap/vi.rs:1069-1073 [init] *)
Definition vi_init (E : env) : MV unit :=
  buf_mut start_undo_group ;;; set_editor_mode E.

(** src/keymap/vi.rs:1075-1089 [handle_key_core].  The recursion through
    [repeat] and the counted insert is bounded by fuel; [vi_core] gives enough
    (theorem in ViRepeat.v). *)
Fixpoint vi_core_fuel (fuel : nat) (E : env) (k : key) : MV unit :=
  match fuel with
  | O => fun _ => OFuel
  | S f =>
    v <- getk ;;
    let rec := vi_core_fuel f E in
    match vmode_of v with
    | MNormal => vi_normal rec E k
    | MInsert => vi_insert rec E k
    | MReplace => vi_replace E k
    | MDelete _ => vi_delete_or_change rec E k
    | MMoveToChar m => vi_move_to_char E k m
    | MG => vi_g E k
    | MTilde => pan PUnreach
    end
  end.
Definition vi_fuel (v : vi) : nat := 3 * (length (v_last v) + length (v_cur v)) + 10.
Definition vi_core (E : env) (k : key) : MV unit :=
  v <- getk ;; vi_core_fuel (vi_fuel v) E k.

Definition vi_key := handle_key vi_core.
Definition vi_read_line := read_line vi_core vi_new vi_init.
