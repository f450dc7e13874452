(** The repository's own unit tests, transcribed mechanically and run on the
    model.  These are tests of the model's fidelity, not properties. *)
From Verif Require Import Base Utf8 BufferModel UtilModel HistoryModel EditorState EditorModel
  KeymapModel ViModel.

(** ASCII tables, one column per character. *)
Definition ascii_uni : unicode :=
  let lower c := ((97 <=? c) && (c <=? 122))%N in
  let upper c := ((65 <=? c) && (c <=? 90))%N in
  let digit c := ((48 <=? c) && (c <=? 57))%N in
  mkUni (fun c => ((c =? 32) || ((9 <=? c) && (c <=? 13)))%N)
        (fun c => lower c || upper c || digit c) lower upper
        (fun c => [if lower c then (c - 32)%N else c])
        (fun c => [if upper c then (c + 32)%N else c])
        (@length char) (@length char).

(** 80 columns, working terminal, default word divider, no completions. *)
Definition test_env : env :=
  mkEnv ascii_uni (Some 80) true (Some 80) get_buffer_words (fun _ => []).

Definition no_fs : fs := mkFs (fun _ => None) (fun _ => false).

Inductive tstep :=
| SHist (t : text) | SNew | SInit | SIns (t : text) | SKeys (l : list key) | SKeysDone (l : list key)
| SCursor (n : nat) | SCursorVar (i : nat) | SSave | SText (t : text) | SSetCursor (n : nat)
| SCount (n : nat) | SSetCount (n : nat) | SMc (n : nat) | SMcleft (n : nat) | SMcright (n : nat)
| S_delete_all_after_cursor | S_delete_all_before_cursor | S_delete_until (n : nat)
| S_delete_until_inclusive (n : nat) | S_find_char (a : nat) (c : char) (n : nat) (r : option nat)
| S_find_char_rev (a : nat) (c : char) (n : nat) (r : option nat)
| S_move_cursor_left (n : nat) | S_move_cursor_right (n : nat) | S_move_cursor_to_start_of_line
| S_move_to_var (i : nat) | S_undo | S_redo
| S_w_move_to_end_of_word (n : nat) | S_w_move_to_end_of_word_ws (n : nat)
| S_w_move_word (n : nat) | S_w_move_word_back (n : nat)
| S_w_move_word_ws (n : nat) | S_w_move_word_ws_back (n : nat).

Section Run.
  Context {K : Type} (core : env -> key -> MK K unit) (init : MK K unit) (k0 : K)
          (count : K -> N) (set_cnt : N -> K -> K) (mcount : K -> N)
          (mleft : K -> ed -> nat) (mright : K -> ed -> res nat).
  Let E := test_env.

  Definition stepm (m : ME unit) (st : K * ed) : option (K * ed) :=
    match lift m st with ORet _ st' => Some st' | _ => None end.

  Fixpoint keys_ (l : list key) (st : K * ed) : option (bool * (K * ed)) :=
    match l with
    | [] => Some (false, st)
    | k :: l' =>
      match handle_key core E k st with
      | ORet true st' => Some (true, st')
      | ORet false st' => keys_ l' st'
      | _ => None
      end
    end.

  Fixpoint run_ (l : list tstep) (h : history) (saved : list nat) (st : option (K * ed)) : bool :=
    match l with
    | [] => true
    | s :: l' =>
      match st with
      | None =>
        match s with
        | SHist t => run_ l' (fst (hist_push no_fs h (buf_of t))) saved None
        | SNew =>
          match editor_new E (mkPrompt (str "prompt") None) None buf_new h no_fs [] [] with
          | ORet _ e => run_ l' h saved (Some (k0, e))
          | _ => false
          end
        | _ => false
        end
      | Some (k, e) =>
        let go m := match stepm m (k, e) with
                    | Some st' => run_ l' h saved (Some st')
                    | None => false
                    end in
        let chk (b : bool) := if b then run_ l' h saved (Some (k, e)) else false in
        let un (m : ME bool) : ME unit := bind m (fun _ => ret tt) in
        let opt_eqb (a b : option nat) :=
          match a, b with Some x, Some y => x =? y | None, None => true | _, _ => false end in
        let txt := match cur_buf e with Val b => data b | Pan _ => [] end in
        match s with
        | SHist _ | SNew => false
        | SInit => match init (k, e) with
                   | ORet _ st' => run_ l' h saved (Some st')
                   | _ => false
                   end
        | SIns t => go (insert_str_after_cursor E t)
        | SKeys ks =>
          match keys_ ks (k, e) with
          | Some (_, st') => run_ l' h saved (Some st')
          | None => false
          end
        | SKeysDone ks =>
          match keys_ ks (k, e) with
          | Some (true, st') => run_ l' h saved (Some st')
          | _ => false
          end
        | SCursor n => chk (ed_cursor e =? n)
        | SCursorVar i => chk (ed_cursor e =? nth i saved 1000)
        | SSave => run_ l' h (saved ++ [ed_cursor e]) st
        | SText t => chk (text_eqb txt t)
        | SSetCursor n => run_ l' h saved (Some (k, set_cursor n e))
        | SCount n => chk (N.eqb (count k) (N.of_nat n))
        | SSetCount n => run_ l' h saved (Some (set_cnt (N.of_nat n) k, e))
        | SMc n => chk (N.eqb (mcount k) (N.of_nat n))
        | SMcleft n => chk (mleft k e =? n)
        | SMcright n => chk (match mright k e with Val m => m =? n | _ => false end)
        | S_delete_all_after_cursor => go (delete_all_after_cursor E)
        | S_delete_all_before_cursor => go (delete_all_before_cursor E)
        | S_delete_until n => go (delete_until E n)
        | S_delete_until_inclusive n => go (delete_until_inclusive E n)
        | S_find_char a c n r =>
          chk (match find_char txt a c (N.of_nat n) with Val x => opt_eqb x r | _ => false end)
        | S_find_char_rev a c n r =>
          chk (match find_char_rev txt a c (N.of_nat n) with Val x => opt_eqb x r | _ => false end)
        | S_move_cursor_left n => go (move_cursor_left E n)
        | S_move_cursor_right n => go (move_cursor_right E n)
        | S_move_cursor_to_start_of_line => go (move_cursor_to_start_of_line E)
        | S_move_to_var i => go (move_cursor_to E (nth i saved 1000))
        | S_undo => go (un (ed_undo E))
        | S_redo => go (un (ed_redo E))
        | S_w_move_to_end_of_word n => go (vi_move_word_end E false true (N.of_nat n))
        | S_w_move_to_end_of_word_ws n => go (vi_move_word_end E true true (N.of_nat n))
        | S_w_move_word n => go (vi_move_word E false true (N.of_nat n))
        | S_w_move_word_back n => go (vi_move_word_end E false false (N.of_nat n))
        | S_w_move_word_ws n => go (vi_move_word E true true (N.of_nat n))
        | S_w_move_word_ws_back n => go (vi_move_word_end E true false (N.of_nat n))
        end
      end
    end.
End Run.

Definition run_vi (l : list tstep) : bool :=
  run_ vi_core (vi_init test_env) vi_new v_count vset_count move_count move_count_left
       move_count_right l hist_new [] None.
Definition run_emacs (l : list tstep) : bool :=
  run_ emacs_core (ret tt) emacs_new (fun _ => 0%N) (fun _ k => k) (fun _ => 0%N)
       (fun _ _ => 0) (fun _ _ => Val 0) l hist_new [] None.

(** src/keymap/vi.rs:1125 *)
Example vi_t_enter_is_done : run_vi
  [SNew;
   SInit;
   SIns (str "done");
   SCursor (4);
   SKeysDone [KChar 10%N];
   SCursor (4);
   SText (str "done")] = true.
Proof. vm_compute. reflexivity. Qed.

(** src/keymap/vi.rs:1140 *)
Example vi_t_move_cursor_left : run_vi
  [SNew;
   SInit;
   SIns (str "let");
   SCursor (3);
   SKeys [KLeft; KChar 102%N];
   SCursor (3);
   SText (str "left")] = true.
Proof. vm_compute. reflexivity. Qed.

(** src/keymap/vi.rs:1155 *)
Example vi_t_cursor_movement : run_vi
  [SNew;
   SInit;
   SIns (str "right");
   SCursor (5);
   SKeys [KLeft; KLeft; KRight];
   SCursor (4)] = true.
Proof. vm_compute. reflexivity. Qed.

(** src/keymap/vi.rs:1169 *)
Example vi_t_move_cursor_start_end : run_vi
  [SNew;
   SInit;
   SIns (str "let there be tests");
   SCursor (18);
   SKeys [KEsc; KChar 94%N];
   SCursor (0);
   SKeys [KChar 94%N];
   SCursor (0);
   SKeys [KChar 36%N];
   SCursor (18 - 1);
   SKeys [KChar 36%N];
   SCursor (18 - 1)] = true.
Proof. vm_compute. reflexivity. Qed.

(** src/keymap/vi.rs:1192 *)
Example vi_t_vi_initial_insert : run_vi
  [SNew;
   SInit;
   SKeys [KChar 105%N; KChar 110%N; KChar 115%N; KChar 101%N; KChar 114%N; KChar 116%N];
   SCursor (6);
   SText (str "insert")] = true.
Proof. vm_compute. reflexivity. Qed.

(** src/keymap/vi.rs:1217 *)
Example vi_t_vi_left_right_movement : run_vi
  [SNew;
   SInit;
   SIns (str "data");
   SCursor (4);
   SKeys [KLeft];
   SCursor (3);
   SKeys [KRight];
   SCursor (4);
   SKeys [KEsc; KLeft];
   SCursor (2);
   SKeys [KRight];
   SCursor (3);
   SKeys [KChar 104%N];
   SCursor (2);
   SKeys [KChar 108%N];
   SCursor (3)] = true.
Proof. vm_compute. reflexivity. Qed.

(** src/keymap/vi.rs:1243 *)
Example vi_t_vi_no_eol : run_vi
  [SNew;
   SInit;
   SIns (str "data");
   SCursor (4);
   SKeys [KEsc];
   SCursor (3);
   SKeys [KRight; KRight];
   SCursor (3);
   SKeys [KChar 105%N; KRight; KRight];
   SCursor (4)] = true.
Proof. vm_compute. reflexivity. Qed.

(** src/keymap/vi.rs:1264 *)
Example vi_t_vi_switch_from_insert : run_vi
  [SNew;
   SInit;
   SIns (str "data");
   SCursor (4);
   SKeys [KEsc];
   SCursor (3);
   SKeys [KChar 105%N; KEsc; KChar 105%N; KCtrl 91%N; KChar 105%N; KEsc; KChar 105%N; KCtrl 91%N];
   SCursor (0)] = true.
Proof. vm_compute. reflexivity. Qed.

(** src/keymap/vi.rs:1296 *)
Example vi_t_vi_normal_history_cursor_eol : run_vi
  [SHist (str "data history");
   SNew;
   SInit;
   SIns (str "data");
   SCursor (4);
   SKeys [KUp];
   SCursor (12);
   SKeys [KCtrl 91%N; KUp];
   SCursor (11)] = true.
Proof. vm_compute. reflexivity. Qed.

(** src/keymap/vi.rs:1314 *)
Example vi_t_vi_normal_history : run_vi
  [SHist (str "data second");
   SHist (str "skip1");
   SHist (str "data one");
   SHist (str "skip2");
   SNew;
   SInit;
   SIns (str "data");
   SCursor (4);
   SKeys [KUp];
   SCursor (8);
   SKeys [KCtrl 91%N; KChar 107%N];
   SCursor (10)] = true.
Proof. vm_compute. reflexivity. Qed.

(** src/keymap/vi.rs:1335 *)
Example vi_t_vi_search_history : run_vi
  [SHist (str "data pat second");
   SHist (str "skip1");
   SHist (str "data pat one");
   SHist (str "skip2");
   SNew;
   SInit;
   SIns (str "pat");
   SCursor (3);
   SKeys [KCtrl 114%N; KRight];
   SCursor (12);
   S_delete_all_before_cursor;
   SCursor (0);
   SKeys [KCtrl 114%N; KChar 112%N; KChar 97%N; KChar 116%N; KCtrl 91%N; KChar 107%N; KCtrl 102%N];
   SCursor (14);
   SKeys [KCtrl 91%N; KChar 117%N; KChar 105%N];
   SCursor (0);
   SKeys [KCtrl 115%N; KChar 112%N; KChar 97%N; KChar 116%N; KCtrl 102%N];
   SCursor (15);
   S_delete_all_before_cursor;
   SCursor (0);
   SIns (str "pat");
   SCursor (3);
   SKeys [KCtrl 115%N; KCtrl 91%N; KChar 106%N; KRight];
   SCursor (11)] = true.
Proof. vm_compute. reflexivity. Qed.

(** src/keymap/vi.rs:1393 *)
Example vi_t_vi_normal_delete : run_vi
  [SHist (str "history");
   SNew;
   SInit;
   SIns (str "data");
   SCursor (4);
   SKeys [KEsc; KChar 48%N; KDelete; KChar 120%N];
   SCursor (0);
   SText (str "ta")] = true.
Proof. vm_compute. reflexivity. Qed.

(** src/keymap/vi.rs:1411 *)
Example vi_t_vi_substitute_command : run_vi
  [SNew;
   SInit;
   SIns (str "data");
   SCursor (4);
   SKeys [KCtrl 91%N; KChar 48%N; KChar 115%N; KChar 115%N];
   SText (str "sata")] = true.
Proof. vm_compute. reflexivity. Qed.

(** src/keymap/vi.rs:1435 *)
Example vi_t_substitute_with_count : run_vi
  [SNew;
   SInit;
   SIns (str "data");
   SCursor (4);
   SKeys [KEsc; KChar 48%N; KChar 50%N; KChar 115%N; KChar 98%N; KChar 101%N];
   SText (str "beta")] = true.
Proof. vm_compute. reflexivity. Qed.

(** src/keymap/vi.rs:1452 *)
Example vi_t_substitute_with_count_repeat : run_vi
  [SNew;
   SInit;
   SIns (str "data data");
   SKeys [KEsc; KChar 48%N; KChar 50%N; KChar 115%N; KChar 98%N; KChar 101%N; KCtrl 91%N; KChar 52%N; KChar 108%N; KChar 46%N];
   SText (str "beta beta")] = true.
Proof. vm_compute. reflexivity. Qed.

(** src/keymap/vi.rs:1481 *)
Example vi_t_vi_count : run_vi
  [SNew;
   SInit;
   SKeys [KEsc];
   SCount 0;
   SKeys [KChar 49%N];
   SCount 1;
   SKeys [KChar 49%N];
   SCount 11;
   SKeys [KChar 105%N; KEsc];
   SCount 0;
   SText (str "")] = true.
Proof. vm_compute. reflexivity. Qed.

(** src/keymap/vi.rs:1505 *)
Example vi_t_vi_count_overflow : run_vi
  [SNew;
   SInit;
   SKeys [KEsc; KChar 57%N; KChar 57%N; KChar 57%N; KChar 57%N; KChar 57%N; KChar 57%N; KChar 57%N; KChar 57%N; KChar 57%N; KChar 57%N; KChar 57%N; KChar 57%N; KChar 57%N; KChar 57%N; KChar 57%N; KChar 57%N; KChar 57%N; KChar 57%N; KChar 57%N; KChar 57%N; KChar 57%N; KChar 57%N; KChar 57%N; KChar 57%N; KChar 57%N; KChar 57%N; KChar 57%N; KChar 57%N; KChar 57%N; KChar 57%N; KChar 57%N; KChar 57%N; KChar 57%N; KChar 57%N; KChar 57%N; KChar 57%N; KChar 57%N; KChar 57%N; KChar 57%N; KChar 57%N; KChar 57%N; KChar 57%N; KChar 57%N; KChar 57%N; KChar 57%N; KChar 57%N; KChar 57%N; KChar 57%N; KChar 57%N; KChar 57%N; KChar 57%N; KChar 57%N; KChar 57%N; KChar 57%N; KChar 57%N; KChar 57%N; KChar 57%N; KChar 57%N; KChar 57%N; KChar 57%N; KChar 57%N; KChar 57%N; KChar 57%N; KChar 57%N; KChar 57%N];
   SText (str "")] = true.
Proof. vm_compute. reflexivity. Qed.

(** src/keymap/vi.rs:1590 *)
Example vi_t_vi_count_overflow_zero : run_vi
  [SNew;
   SInit;
   SKeys [KEsc; KChar 49%N; KChar 48%N; KChar 48%N; KChar 48%N; KChar 48%N; KChar 48%N; KChar 48%N; KChar 48%N; KChar 48%N; KChar 48%N; KChar 48%N; KChar 48%N; KChar 48%N; KChar 48%N; KChar 48%N; KChar 48%N; KChar 48%N; KChar 48%N; KChar 48%N; KChar 48%N; KChar 48%N; KChar 48%N; KChar 48%N; KChar 48%N; KChar 48%N; KChar 48%N; KChar 48%N; KChar 48%N; KChar 48%N; KChar 48%N; KChar 48%N; KChar 48%N; KChar 48%N; KChar 48%N; KChar 48%N; KChar 48%N; KChar 48%N; KChar 48%N; KChar 48%N; KChar 48%N; KChar 48%N; KChar 48%N; KChar 48%N; KChar 48%N; KChar 48%N; KChar 48%N; KChar 48%N; KChar 48%N; KChar 48%N; KChar 48%N; KChar 48%N; KChar 48%N; KChar 48%N; KChar 48%N; KChar 48%N; KChar 48%N; KChar 48%N; KChar 48%N; KChar 48%N; KChar 48%N];
   SText (str "")] = true.
Proof. vm_compute. reflexivity. Qed.

(** src/keymap/vi.rs:1670 *)
Example vi_t_vi_count_cancel : run_vi
  [SNew;
   SInit;
   SKeys [KEsc; KChar 49%N; KChar 48%N; KEsc];
   SCount 0;
   SText (str "")] = true.
Proof. vm_compute. reflexivity. Qed.

(** src/keymap/vi.rs:1683 *)
Example vi_t_vi_count_simple : run_vi
  [SNew;
   SInit;
   SKeys [KCtrl 91%N; KChar 51%N; KChar 105%N; KChar 116%N; KChar 104%N; KChar 105%N; KChar 115%N; KEsc];
   SText (str "thisthisthis")] = true.
Proof. vm_compute. reflexivity. Qed.

(** src/keymap/vi.rs:1711 *)
Example vi_t_vi_dot_command : run_vi
  [SNew;
   SInit;
   SKeys [KChar 105%N; KChar 102%N; KEsc; KChar 46%N; KChar 46%N];
   SText (str "iiifff")] = true.
Proof. vm_compute. reflexivity. Qed.

(** src/keymap/vi.rs:1727 *)
Example vi_t_vi_dot_command_repeat : run_vi
  [SNew;
   SInit;
   SKeys [KChar 105%N; KChar 102%N; KEsc; KChar 51%N; KChar 46%N];
   SText (str "iifififf")] = true.
Proof. vm_compute. reflexivity. Qed.

(** src/keymap/vi.rs:1743 *)
Example vi_t_vi_dot_command_repeat_multiple : run_vi
  [SNew;
   SInit;
   SKeys [KChar 105%N; KChar 102%N; KEsc; KChar 51%N; KChar 46%N; KChar 46%N];
   SText (str "iififiifififff")] = true.
Proof. vm_compute. reflexivity. Qed.

(** src/keymap/vi.rs:1759 *)
Example vi_t_vi_dot_command_append : run_vi
  [SNew;
   SInit;
   SKeys [KEsc; KChar 97%N; KChar 105%N; KChar 102%N; KEsc; KChar 46%N; KChar 46%N];
   SText (str "ififif")] = true.
Proof. vm_compute. reflexivity. Qed.

(** src/keymap/vi.rs:1785 *)
Example vi_t_vi_dot_command_append_repeat : run_vi
  [SNew;
   SInit;
   SKeys [KEsc; KChar 97%N; KChar 105%N; KChar 102%N; KEsc; KChar 51%N; KChar 46%N];
   SText (str "ifififif")] = true.
Proof. vm_compute. reflexivity. Qed.

(** src/keymap/vi.rs:1811 *)
Example vi_t_vi_dot_command_movement : run_vi
  [SNew;
   SInit;
   SKeys [KEsc; KChar 97%N; KChar 100%N; KChar 116%N; KChar 32%N; KLeft; KLeft; KChar 97%N; KEsc; KRight; KRight; KChar 46%N];
   SText (str "data ")] = true.
Proof. vm_compute. reflexivity. Qed.

(** src/keymap/vi.rs:1842 *)
Example vi_t_move_count : run_vi
  [SNew;
   SInit;
   SMc 1;
   SSetCount 1;
   SMc 1;
   SSetCount 99;
   SMc 99] = true.
Proof. vm_compute. reflexivity. Qed.

(** src/keymap/vi.rs:1857 *)
Example vi_t_vi_count_movement_reset : run_vi
  [SNew;
   SInit;
   SKeys [KEsc; KChar 51%N; KChar 105%N; KChar 116%N; KChar 104%N; KChar 105%N; KChar 115%N; KLeft; KEsc];
   SText (str "this")] = true.
Proof. vm_compute. reflexivity. Qed.

(** src/keymap/vi.rs:1885 *)
Example vi_t_movement_with_count : run_vi
  [SNew;
   SInit;
   SIns (str "right");
   SCursor (5);
   SKeys [KEsc; KChar 51%N; KLeft];
   SCursor (1)] = true.
Proof. vm_compute. reflexivity. Qed.

(** src/keymap/vi.rs:1900 *)
Example vi_t_movement_with_count_then_insert : run_vi
  [SNew;
   SInit;
   SIns (str "right");
   SCursor (5);
   SKeys [KEsc; KChar 51%N; KLeft; KChar 105%N; KChar 32%N; KEsc];
   SText (str "r ight")] = true.
Proof. vm_compute. reflexivity. Qed.

(** src/keymap/vi.rs:1918 *)
Example vi_t_count_at_buffer_edge : run_vi
  [SNew;
   SInit;
   SIns (str "replace");
   SCursor (7);
   SKeys [KEsc; KChar 51%N; KChar 114%N; KChar 120%N];
   SCursor (6);
   SText (str "replace")] = true.
Proof. vm_compute. reflexivity. Qed.

(** src/keymap/vi.rs:1939 *)
Example vi_t_basic_replace : run_vi
  [SNew;
   SInit;
   SIns (str "replace");
   SCursor (7);
   SKeys [KEsc; KChar 114%N; KChar 120%N];
   SCursor (6);
   SText (str "replacx")] = true.
Proof. vm_compute. reflexivity. Qed.

(** src/keymap/vi.rs:1954 *)
Example vi_t_replace_with_count : run_vi
  [SNew;
   SInit;
   SIns (str "replace");
   SCursor (7);
   SKeys [KEsc; KChar 48%N; KChar 51%N; KChar 114%N; KChar 32%N];
   SCursor (2);
   SText (str "   lace")] = true.
Proof. vm_compute. reflexivity. Qed.

(** src/keymap/vi.rs:1974 *)
Example vi_t_replace_with_count_eol : run_vi
  [SNew;
   SInit;
   SIns (str "replace");
   SCursor (7);
   SKeys [KEsc; KChar 51%N; KChar 114%N; KChar 120%N];
   SCursor (6);
   SText (str "replace")] = true.
Proof. vm_compute. reflexivity. Qed.

(** src/keymap/vi.rs:1995 *)
Example vi_t_replace_then_normal : run_vi
  [SNew;
   SInit;
   SIns (str "replace");
   SCursor (7);
   SKeys [KEsc; KChar 114%N; KChar 120%N; KChar 48%N];
   SCursor (0);
   SText (str "replacx")] = true.
Proof. vm_compute. reflexivity. Qed.

(** src/keymap/vi.rs:2015 *)
Example vi_t_dot_replace : run_vi
  [SNew;
   SInit;
   SIns (str "replace");
   SCursor (7);
   SKeys [KEsc; KChar 48%N; KChar 114%N; KChar 120%N; KChar 46%N; KChar 46%N; KChar 55%N; KChar 46%N];
   SText (str "xxxxxxx")] = true.
Proof. vm_compute. reflexivity. Qed.

(** src/keymap/vi.rs:2044 *)
Example vi_t_dot_replace_count : run_vi
  [SNew;
   SInit;
   SIns (str "replace");
   SCursor (7);
   SKeys [KEsc; KChar 48%N; KChar 50%N; KChar 114%N; KChar 120%N; KChar 46%N; KChar 46%N; KChar 46%N; KChar 46%N; KChar 46%N];
   SText (str "xxxxxxx")] = true.
Proof. vm_compute. reflexivity. Qed.

(** src/keymap/vi.rs:2075 *)
Example vi_t_dot_replace_eol : run_vi
  [SNew;
   SInit;
   SIns (str "test");
   SKeys [KEsc; KChar 48%N; KChar 51%N; KChar 114%N; KChar 120%N; KChar 46%N; KChar 46%N];
   SText (str "xxxt")] = true.
Proof. vm_compute. reflexivity. Qed.

(** src/keymap/vi.rs:2102 *)
Example vi_t_dot_replace_eol_multiple : run_vi
  [SNew;
   SInit;
   SIns (str "this is a test");
   SKeys [KEsc; KChar 48%N; KChar 51%N; KChar 114%N; KChar 120%N; KChar 36%N; KChar 46%N; KChar 52%N; KChar 104%N; KChar 46%N];
   SText (str "xxxs is axxxst")] = true.
Proof. vm_compute. reflexivity. Qed.

(** src/keymap/vi.rs:2132 *)
Example vi_t_move_count_right : run_vi
  [SNew;
   SInit;
   SIns (str "replace");
   SCursor (7);
   SMcright 0;
   SSetCount 10;
   SMcright 0;
   SSetCount 0;
   SKeys [KEsc; KLeft];
   SMcright 1] = true.
Proof. vm_compute. reflexivity. Qed.

(** src/keymap/vi.rs:2151 *)
Example vi_t_move_count_left : run_vi
  [SNew;
   SInit;
   SIns (str "replace");
   SCursor (7);
   SMcleft 1;
   SSetCount 10;
   SMcleft 7;
   SSetCount 0;
   SKeys [KEsc; KChar 48%N];
   SMcleft 0] = true.
Proof. vm_compute. reflexivity. Qed.

(** src/keymap/vi.rs:2170 *)
Example vi_t_dot_x_delete : run_vi
  [SNew;
   SInit;
   SIns (str "replace");
   SCursor (7);
   SKeys [KEsc; KChar 48%N; KChar 50%N; KChar 120%N; KChar 46%N];
   SText (str "ace")] = true.
Proof. vm_compute. reflexivity. Qed.

(** src/keymap/vi.rs:2188 *)
Example vi_t_delete_line : run_vi
  [SNew;
   SInit;
   SIns (str "delete");
   SKeys [KEsc; KChar 100%N; KChar 100%N];
   SCursor (0);
   SText (str "")] = true.
Proof. vm_compute. reflexivity. Qed.

(** src/keymap/vi.rs:2202 *)
Example vi_t_delete_line_normal : run_vi
  [SNew;
   SInit;
   SIns (str "delete");
   SKeys [KEsc; KChar 100%N; KChar 100%N; KChar 105%N; KChar 110%N; KChar 101%N; KChar 119%N; KEsc];
   SCursor (2);
   SText (str "new")] = true.
Proof. vm_compute. reflexivity. Qed.

(** src/keymap/vi.rs:2231 *)
Example vi_t_delete_abort : run_vi
  [SNew;
   SInit;
   SIns (str "don't delete");
   SKeys [KEsc; KChar 100%N; KEsc; KChar 100%N; KChar 99%N; KChar 99%N; KChar 100%N];
   SCursor (11);
   SText (str "don't delete")] = true.
Proof. vm_compute. reflexivity. Qed.

(** src/keymap/vi.rs:2259 *)
Example vi_t_delete_char_left : run_vi
  [SNew;
   SInit;
   SIns (str "delete");
   SKeys [KEsc; KChar 100%N; KChar 104%N];
   SCursor (4);
   SText (str "delee")] = true.
Proof. vm_compute. reflexivity. Qed.

(** src/keymap/vi.rs:2273 *)
Example vi_t_delete_chars_left : run_vi
  [SNew;
   SInit;
   SIns (str "delete");
   SKeys [KEsc; KChar 51%N; KChar 100%N; KChar 104%N];
   SCursor (2);
   SText (str "dee")] = true.
Proof. vm_compute. reflexivity. Qed.

(** src/keymap/vi.rs:2291 *)
Example vi_t_delete_char_right : run_vi
  [SNew;
   SInit;
   SIns (str "delete");
   SKeys [KEsc; KChar 48%N; KChar 100%N; KChar 108%N];
   SCursor (0);
   SText (str "elete")] = true.
Proof. vm_compute. reflexivity. Qed.

(** src/keymap/vi.rs:2310 *)
Example vi_t_delete_chars_right : run_vi
  [SNew;
   SInit;
   SIns (str "delete");
   SKeys [KEsc; KChar 48%N; KChar 51%N; KChar 100%N; KChar 108%N];
   SCursor (0);
   SText (str "ete")] = true.
Proof. vm_compute. reflexivity. Qed.

(** src/keymap/vi.rs:2329 *)
Example vi_t_delete_and_repeat : run_vi
  [SNew;
   SInit;
   SIns (str "delete");
   SKeys [KEsc; KChar 48%N; KChar 100%N; KChar 108%N; KChar 46%N];
   SCursor (0);
   SText (str "lete")] = true.
Proof. vm_compute. reflexivity. Qed.

(** src/keymap/vi.rs:2348 *)
Example vi_t_delete_until_end : run_vi
  [SNew;
   SInit;
   SIns (str "delete");
   SKeys [KEsc; KChar 48%N; KChar 100%N; KChar 36%N];
   SCursor (0);
   SText (str "")] = true.
Proof. vm_compute. reflexivity. Qed.

(** src/keymap/vi.rs:2367 *)
Example vi_t_delete_until_end_shift_d : run_vi
  [SNew;
   SInit;
   SIns (str "delete");
   SKeys [KEsc; KChar 48%N; KChar 68%N];
   SCursor (0);
   SText (str "")] = true.
Proof. vm_compute. reflexivity. Qed.

(** src/keymap/vi.rs:2381 *)
Example vi_t_delete_until_start : run_vi
  [SNew;
   SInit;
   SIns (str "delete");
   SKeys [KEsc; KChar 36%N; KChar 100%N; KChar 48%N];
   SCursor (0);
   SText (str "e")] = true.
Proof. vm_compute. reflexivity. Qed.

(** src/keymap/vi.rs:2400 *)
Example vi_t_delete_with_count : run_vi
  [SNew;
   SInit;
   SIns (str "delete");
   SKeys [KEsc; KChar 48%N; KChar 50%N; KChar 100%N; KChar 50%N; KChar 108%N];
   SCursor (0);
   SText (str "te")] = true.
Proof. vm_compute. reflexivity. Qed.

(** src/keymap/vi.rs:2419 *)
Example vi_t_delete_with_count_and_repeat : run_vi
  [SNew;
   SInit;
   SIns (str "delete delete");
   SKeys [KEsc; KChar 48%N; KChar 50%N; KChar 100%N; KChar 50%N; KChar 108%N; KChar 46%N];
   SCursor (0);
   SText (str "elete")] = true.
Proof. vm_compute. reflexivity. Qed.

(** src/keymap/vi.rs:2447 *)
Example vi_t_move_to_end_of_word_simple : run_vi
  [SNew;
   SIns (str "here are");
   SSave;
   SIns (str " som");
   SSave;
   SIns (str "e words");
   S_move_to_var 0;
   S_w_move_to_end_of_word 1;
   SCursorVar 1] = true.
Proof. vm_compute. reflexivity. Qed.

(** src/keymap/vi.rs:2463 *)
Example vi_t_move_to_end_of_word_comma : run_vi
  [SNew;
   SIns (str "here ar");
   SSave;
   SIns [101%N];
   SSave;
   SIns (str ", som");
   SSave;
   SIns (str "e words");
   S_move_to_var 0;
   S_w_move_to_end_of_word 1;
   SCursorVar 1;
   S_w_move_to_end_of_word 1;
   SCursorVar 2] = true.
Proof. vm_compute. reflexivity. Qed.

(** src/keymap/vi.rs:2483 *)
Example vi_t_move_to_end_of_word_nonkeywords : run_vi
  [SNew;
   SIns (str "here ar");
   SSave;
   SIns (str "e,,,");
   SSave;
   SIns (str ",som");
   SSave;
   SIns (str "e words");
   S_move_to_var 0;
   S_w_move_to_end_of_word 1;
   SCursorVar 1;
   S_w_move_to_end_of_word 1;
   SCursorVar 2] = true.
Proof. vm_compute. reflexivity. Qed.

(** src/keymap/vi.rs:2503 *)
Example vi_t_move_to_end_of_word_whitespace : run_vi
  [SNew;
   SCursor (0);
   SIns (str "here are");
   SSave;
   SCursor (8);
   SIns (str "      som");
   SCursor (17);
   SIns (str "e words");
   SCursor (24);
   S_move_to_var 0;
   SCursor (8);
   S_w_move_to_end_of_word 1;
   SCursor (17)] = true.
Proof. vm_compute. reflexivity. Qed.

(** src/keymap/vi.rs:2523 *)
Example vi_t_move_to_end_of_word_whitespace_nonkeywords : run_vi
  [SNew;
   SIns (str "here ar");
   SSave;
   SIns (str "e   ,,,");
   SSave;
   SIns (str ", som");
   SSave;
   SIns (str "e words");
   S_move_to_var 0;
   S_w_move_to_end_of_word 1;
   SCursorVar 1;
   S_w_move_to_end_of_word 1;
   SCursorVar 2] = true.
Proof. vm_compute. reflexivity. Qed.

(** src/keymap/vi.rs:2543 *)
Example vi_t_move_to_end_of_word_ws_simple : run_vi
  [SNew;
   SIns (str "here are");
   SSave;
   SIns (str " som");
   SSave;
   SIns (str "e words");
   S_move_to_var 0;
   S_w_move_to_end_of_word_ws 1;
   SCursorVar 1] = true.
Proof. vm_compute. reflexivity. Qed.

(** src/keymap/vi.rs:2559 *)
Example vi_t_move_to_end_of_word_ws_comma : run_vi
  [SNew;
   SIns (str "here ar");
   SSave;
   SIns [101%N];
   SSave;
   SIns (str ", som");
   SSave;
   SIns (str "e words");
   S_move_to_var 0;
   S_w_move_to_end_of_word_ws 1;
   SCursorVar 1;
   S_w_move_to_end_of_word_ws 1;
   SCursorVar 2] = true.
Proof. vm_compute. reflexivity. Qed.

(** src/keymap/vi.rs:2579 *)
Example vi_t_move_to_end_of_word_ws_nonkeywords : run_vi
  [SNew;
   SIns (str "here ar");
   SSave;
   SIns (str "e,,,,som");
   SSave;
   SIns (str "e words");
   S_move_to_var 0;
   S_w_move_to_end_of_word_ws 1;
   SCursorVar 1] = true.
Proof. vm_compute. reflexivity. Qed.

(** src/keymap/vi.rs:2594 *)
Example vi_t_move_to_end_of_word_ws_whitespace : run_vi
  [SNew;
   SIns (str "here are");
   SSave;
   SIns (str "      som");
   SSave;
   SIns (str "e words");
   S_move_to_var 0;
   S_w_move_to_end_of_word_ws 1;
   SCursorVar 1] = true.
Proof. vm_compute. reflexivity. Qed.

(** src/keymap/vi.rs:2610 *)
Example vi_t_move_to_end_of_word_ws_whitespace_nonkeywords : run_vi
  [SNew;
   SIns (str "here ar");
   SSave;
   SIns (str "e   ,,,");
   SSave;
   SIns (str ", som");
   SSave;
   SIns (str "e words");
   S_move_to_var 0;
   S_w_move_to_end_of_word_ws 1;
   SCursorVar 1;
   S_w_move_to_end_of_word_ws 1;
   SCursorVar 2] = true.
Proof. vm_compute. reflexivity. Qed.

(** src/keymap/vi.rs:2630 *)
Example vi_t_move_word_simple : run_vi
  [SNew;
   SIns (str "here ");
   SSave;
   SIns (str "are ");
   SSave;
   SIns (str "some words");
   S_move_cursor_to_start_of_line;
   S_w_move_word 1;
   SCursorVar 0;
   S_w_move_word 1;
   SCursorVar 1;
   S_move_cursor_to_start_of_line;
   S_w_move_word_ws 1;
   SCursorVar 0;
   S_w_move_word_ws 1;
   SCursorVar 1] = true.
Proof. vm_compute. reflexivity. Qed.

(** src/keymap/vi.rs:2654 *)
Example vi_t_move_word_whitespace : run_vi
  [SNew;
   SIns (str "   ");
   SSave;
   SIns (str "word");
   SSave;
   S_move_cursor_to_start_of_line;
   S_w_move_word 1;
   SCursorVar 0;
   S_w_move_word 1;
   SCursorVar 1;
   S_move_cursor_to_start_of_line;
   S_w_move_word_ws 1;
   SCursorVar 0;
   S_w_move_word_ws 1;
   SCursorVar 1] = true.
Proof. vm_compute. reflexivity. Qed.

(** src/keymap/vi.rs:2677 *)
Example vi_t_move_word_nonkeywords : run_vi
  [SNew;
   SIns (str "..=");
   SSave;
   SIns (str "word");
   SSave;
   S_move_cursor_to_start_of_line;
   S_w_move_word 1;
   SCursorVar 0;
   S_w_move_word 1;
   SCursorVar 1;
   S_move_cursor_to_start_of_line;
   S_w_move_word_ws 1;
   SCursorVar 1] = true.
Proof. vm_compute. reflexivity. Qed.

(** src/keymap/vi.rs:2698 *)
Example vi_t_move_word_whitespace_nonkeywords : run_vi
  [SNew;
   SIns (str "..=   ");
   SSave;
   SIns (str "..=");
   SSave;
   SIns (str "word");
   SSave;
   S_move_cursor_to_start_of_line;
   S_w_move_word 1;
   SCursorVar 0;
   S_w_move_word 1;
   SCursorVar 1;
   S_move_cursor_to_start_of_line;
   S_w_move_word_ws 1;
   SCursorVar 0;
   S_w_move_word_ws 1;
   SCursorVar 2] = true.
Proof. vm_compute. reflexivity. Qed.

(** src/keymap/vi.rs:2723 *)
Example vi_t_move_word_and_back : run_vi
  [SNew;
   SIns (str "here ");
   SSave;
   SIns (str "are ");
   SSave;
   SIns (str "some");
   SSave;
   SIns (str "..= ");
   SSave;
   SIns (str "words");
   SSave;
   S_move_cursor_to_start_of_line;
   S_w_move_word 1;
   SCursorVar 0;
   S_w_move_word 1;
   SCursorVar 1;
   S_w_move_word 1;
   SCursorVar 2;
   S_w_move_word 1;
   SCursorVar 3;
   S_w_move_word 1;
   SCursorVar 4;
   S_w_move_word_back 1;
   SCursorVar 3;
   S_w_move_word_back 1;
   SCursorVar 2;
   S_w_move_word_back 1;
   SCursorVar 1;
   S_w_move_word_back 1;
   SCursorVar 0;
   S_w_move_word_back 1;
   SCursor (0);
   S_move_cursor_to_start_of_line;
   S_w_move_word_ws 1;
   SCursorVar 0;
   S_w_move_word_ws 1;
   SCursorVar 1;
   S_w_move_word_ws 1;
   SCursorVar 3;
   S_w_move_word_ws 1;
   SCursorVar 4;
   S_w_move_word_ws_back 1;
   SCursorVar 3;
   S_w_move_word_ws_back 1;
   SCursorVar 1;
   S_w_move_word_ws_back 1;
   SCursorVar 0;
   S_w_move_word_ws_back 1;
   SCursor (0)] = true.
Proof. vm_compute. reflexivity. Qed.

(** src/keymap/vi.rs:2784 *)
Example vi_t_move_word_and_back_with_count : run_vi
  [SNew;
   SIns (str "here ");
   SIns (str "are ");
   SSave;
   SIns (str "some");
   SSave;
   SIns (str "..= ");
   SIns (str "words");
   SSave;
   S_move_cursor_to_start_of_line;
   S_w_move_word 3;
   SCursorVar 1;
   S_w_move_word 2;
   SCursorVar 2;
   S_w_move_word_back 2;
   SCursorVar 1;
   S_w_move_word_back 3;
   SCursor (0);
   S_move_cursor_to_start_of_line;
   S_w_move_word_ws 2;
   SCursorVar 0;
   S_w_move_word_ws 2;
   SCursorVar 2;
   S_w_move_word_ws_back 2;
   SCursorVar 0;
   S_w_move_word_ws_back 2;
   SCursor (0)] = true.
Proof. vm_compute. reflexivity. Qed.

(** src/keymap/vi.rs:2822 *)
Example vi_t_move_to_end_of_word_ws_whitespace_count : run_vi
  [SNew;
   SIns (str "here are");
   SSave;
   SIns (str "      som");
   SIns (str "e word");
   SSave;
   SIns (str "s and some");
   S_move_to_var 0;
   S_w_move_to_end_of_word_ws 2;
   SCursorVar 1] = true.
Proof. vm_compute. reflexivity. Qed.

(** src/keymap/vi.rs:2839 *)
Example vi_t_delete_word : run_vi
  [SNew;
   SInit;
   SIns (str "delete some words");
   SKeys [KEsc; KChar 48%N; KChar 100%N; KChar 119%N];
   SCursor (0);
   SText (str "some words")] = true.
Proof. vm_compute. reflexivity. Qed.

(** src/keymap/vi.rs:2858 *)
Example vi_t_change_line : run_vi
  [SNew;
   SInit;
   SIns (str "change");
   SKeys [KEsc; KChar 99%N; KChar 99%N; KChar 100%N; KChar 111%N; KChar 110%N; KChar 101%N];
   SCursor (4);
   SText (str "done")] = true.
Proof. vm_compute. reflexivity. Qed.

(** src/keymap/vi.rs:2886 *)
Example vi_t_change_char_left : run_vi
  [SNew;
   SInit;
   SIns (str "change");
   SKeys [KEsc; KChar 99%N; KChar 104%N; KChar 101%N; KEsc];
   SCursor (4);
   SText (str "chanee")] = true.
Proof. vm_compute. reflexivity. Qed.

(** src/keymap/vi.rs:2904 *)
Example vi_t_change_chars_left : run_vi
  [SNew;
   SInit;
   SIns (str "change");
   SKeys [KEsc; KChar 51%N; KChar 99%N; KChar 104%N; KChar 101%N];
   SCursor (3);
   SText (str "chee")] = true.
Proof. vm_compute. reflexivity. Qed.

(** src/keymap/vi.rs:2922 *)
Example vi_t_change_char_right : run_vi
  [SNew;
   SInit;
   SIns (str "change");
   SKeys [KEsc; KChar 48%N; KChar 99%N; KChar 108%N; KChar 115%N];
   SCursor (1);
   SText (str "shange")] = true.
Proof. vm_compute. reflexivity. Qed.

(** src/keymap/vi.rs:2940 *)
Example vi_t_change_chars_right : run_vi
  [SNew;
   SInit;
   SIns (str "change");
   SKeys [KEsc; KChar 48%N; KChar 51%N; KChar 99%N; KChar 108%N; KChar 115%N; KChar 116%N; KChar 114%N; KChar 97%N; KEsc];
   SCursor (3);
   SText (str "strange")] = true.
Proof. vm_compute. reflexivity. Qed.

(** src/keymap/vi.rs:2971 *)
Example vi_t_change_and_repeat : run_vi
  [SNew;
   SInit;
   SIns (str "change");
   SKeys [KEsc; KChar 48%N; KChar 99%N; KChar 108%N; KChar 115%N; KEsc; KChar 108%N; KChar 46%N; KChar 108%N; KChar 46%N];
   SCursor (2);
   SText (str "sssnge")] = true.
Proof. vm_compute. reflexivity. Qed.

(** src/keymap/vi.rs:3002 *)
Example vi_t_change_until_end : run_vi
  [SNew;
   SInit;
   SIns (str "change");
   SKeys [KEsc; KChar 48%N; KChar 99%N; KChar 36%N; KChar 111%N; KChar 107%N; KEsc];
   SCursor (1);
   SText (str "ok")] = true.
Proof. vm_compute. reflexivity. Qed.

(** src/keymap/vi.rs:3030 *)
Example vi_t_change_until_end_shift_c : run_vi
  [SNew;
   SInit;
   SIns (str "change");
   SKeys [KEsc; KChar 48%N; KChar 67%N; KChar 111%N; KChar 107%N];
   SCursor (2);
   SText (str "ok")] = true.
Proof. vm_compute. reflexivity. Qed.

(** src/keymap/vi.rs:3048 *)
Example vi_t_change_until_end_from_middle_shift_c : run_vi
  [SNew;
   SInit;
   SIns (str "change");
   SKeys [KEsc; KChar 48%N; KChar 50%N; KChar 108%N; KChar 67%N; KChar 32%N; KChar 111%N; KChar 107%N; KEsc];
   SText (str "ch ok")] = true.
Proof. vm_compute. reflexivity. Qed.

(** src/keymap/vi.rs:3077 *)
Example vi_t_change_until_start : run_vi
  [SNew;
   SInit;
   SIns (str "change");
   SKeys [KEsc; KChar 36%N; KChar 99%N; KChar 48%N; KChar 115%N; KChar 116%N; KChar 114%N; KChar 97%N; KChar 110%N; KChar 103%N];
   SCursor (6);
   SText (str "strange")] = true.
Proof. vm_compute. reflexivity. Qed.

(** src/keymap/vi.rs:3108 *)
Example vi_t_change_with_count : run_vi
  [SNew;
   SInit;
   SIns (str "change");
   SKeys [KEsc; KChar 48%N; KChar 50%N; KChar 99%N; KChar 50%N; KChar 108%N; KChar 115%N; KChar 116%N; KChar 114%N; KChar 97%N; KChar 110%N; KEsc];
   SCursor (4);
   SText (str "strange")] = true.
Proof. vm_compute. reflexivity. Qed.

(** src/keymap/vi.rs:3141 *)
Example vi_t_change_with_count_and_repeat : run_vi
  [SNew;
   SInit;
   SIns (str "change change");
   SKeys [KEsc; KChar 48%N; KChar 50%N; KChar 99%N; KChar 50%N; KChar 108%N; KChar 111%N; KEsc; KChar 46%N];
   SCursor (0);
   SText (str "ochange")] = true.
Proof. vm_compute. reflexivity. Qed.

(** src/keymap/vi.rs:3171 *)
Example vi_t_change_word : run_vi
  [SNew;
   SInit;
   SIns (str "change some words");
   SKeys [KEsc; KChar 48%N; KChar 99%N; KChar 119%N; KChar 116%N; KChar 119%N; KChar 101%N; KChar 97%N; KChar 107%N; KChar 32%N];
   SText (str "tweak some words")] = true.
Proof. vm_compute. reflexivity. Qed.

(** src/keymap/vi.rs:3201 *)
Example vi_t_test_count_reset_around_insert_and_delete : run_vi
  [SNew;
   SInit;
   SIns (str "these are some words");
   SKeys [KEsc; KChar 48%N; KChar 100%N; KChar 51%N; KChar 119%N; KChar 105%N; KChar 119%N; KChar 111%N; KChar 114%N; KChar 100%N; KChar 115%N; KChar 32%N; KEsc; KChar 108%N; KChar 46%N];
   SText (str "words words words")] = true.
Proof. vm_compute. reflexivity. Qed.

(** src/keymap/vi.rs:3236 *)
Example vi_t_test_t_not_found : run_vi
  [SNew;
   SInit;
   SIns (str "abc defg");
   SKeys [KEsc; KChar 48%N; KChar 116%N; KChar 122%N];
   SCursor (0)] = true.
Proof. vm_compute. reflexivity. Qed.

(** src/keymap/vi.rs:3254 *)
Example vi_t_test_t_movement : run_vi
  [SNew;
   SInit;
   SIns (str "abc defg");
   SKeys [KEsc; KChar 48%N; KChar 116%N; KChar 100%N];
   SCursor (3)] = true.
Proof. vm_compute. reflexivity. Qed.

(** src/keymap/vi.rs:3271 *)
Example vi_t_test_t_movement_with_count : run_vi
  [SNew;
   SInit;
   SIns (str "abc defg d");
   SKeys [KEsc; KChar 48%N; KChar 50%N; KChar 116%N; KChar 100%N];
   SCursor (8)] = true.
Proof. vm_compute. reflexivity. Qed.

(** src/keymap/vi.rs:3289 *)
Example vi_t_test_t_movement_then_normal : run_vi
  [SNew;
   SInit;
   SIns (str "abc defg");
   SKeys [KEsc; KChar 48%N; KChar 116%N; KChar 100%N; KChar 108%N];
   SCursor (4)] = true.
Proof. vm_compute. reflexivity. Qed.

(** src/keymap/vi.rs:3306 *)
Example vi_t_test_t_movement_with_delete : run_vi
  [SNew;
   SInit;
   SIns (str "abc defg");
   SKeys [KEsc; KChar 48%N; KChar 100%N; KChar 116%N; KChar 100%N];
   SCursor (0);
   SText (str "defg")] = true.
Proof. vm_compute. reflexivity. Qed.

(** src/keymap/vi.rs:3325 *)
Example vi_t_test_t_movement_with_change : run_vi
  [SNew;
   SInit;
   SIns (str "abc defg");
   SKeys [KEsc; KChar 48%N; KChar 99%N; KChar 116%N; KChar 100%N; KChar 122%N; KChar 32%N; KEsc];
   SCursor (1);
   SText (str "z defg")] = true.
Proof. vm_compute. reflexivity. Qed.

(** src/keymap/vi.rs:3354 *)
Example vi_t_test_f_movement : run_vi
  [SNew;
   SInit;
   SIns (str "abc defg");
   SKeys [KEsc; KChar 48%N; KChar 102%N; KChar 100%N];
   SCursor (4)] = true.
Proof. vm_compute. reflexivity. Qed.

(** src/keymap/vi.rs:3371 *)
Example vi_t_test_cap_t_movement : run_vi
  [SNew;
   SInit;
   SIns (str "abc defg");
   SKeys [KEsc; KChar 36%N; KChar 84%N; KChar 100%N];
   SCursor (5)] = true.
Proof. vm_compute. reflexivity. Qed.

(** src/keymap/vi.rs:3388 *)
Example vi_t_test_cap_f_movement : run_vi
  [SNew;
   SInit;
   SIns (str "abc defg");
   SKeys [KEsc; KChar 36%N; KChar 70%N; KChar 100%N];
   SCursor (4)] = true.
Proof. vm_compute. reflexivity. Qed.

(** src/keymap/vi.rs:3405 *)
Example vi_t_test_semi_movement : run_vi
  [SNew;
   SInit;
   SIns (str "abc abc");
   SKeys [KEsc; KChar 48%N; KChar 102%N; KChar 99%N; KChar 59%N];
   SCursor (6)] = true.
Proof. vm_compute. reflexivity. Qed.

(** src/keymap/vi.rs:3422 *)
Example vi_t_test_comma_movement : run_vi
  [SNew;
   SInit;
   SIns (str "abc abc");
   SKeys [KEsc; KChar 48%N; KChar 102%N; KChar 99%N; KChar 36%N; KChar 44%N];
   SCursor (2)] = true.
Proof. vm_compute. reflexivity. Qed.

(** src/keymap/vi.rs:3439 *)
Example vi_t_test_semi_delete : run_vi
  [SNew;
   SInit;
   SIns (str "abc abc");
   SKeys [KEsc; KChar 48%N; KChar 102%N; KChar 99%N; KChar 100%N; KChar 59%N];
   SCursor (1);
   SText (str "ab")] = true.
Proof. vm_compute. reflexivity. Qed.

(** src/keymap/vi.rs:3457 *)
Example vi_t_test_semi_delete_repeat : run_vi
  [SNew;
   SInit;
   SIns (str "abc abc abc abc");
   SKeys [KEsc; KChar 48%N; KChar 102%N; KChar 99%N; KChar 100%N; KChar 59%N; KChar 46%N; KChar 46%N];
   SText (str "ab")] = true.
Proof. vm_compute. reflexivity. Qed.

(** src/keymap/vi.rs:3485 *)
Example vi_t_test_find_char : run_vi
  [SNew;
   SIns (str "abcdefg");
   S_find_char 0 100%N 1 (Some 3)] = true.
Proof. vm_compute. reflexivity. Qed.

(** src/keymap/vi.rs:3494 *)
Example vi_t_test_find_char_with_start : run_vi
  [SNew;
   SIns (str "abcabc");
   S_find_char 1 97%N 1 (Some 3)] = true.
Proof. vm_compute. reflexivity. Qed.

(** src/keymap/vi.rs:3503 *)
Example vi_t_test_find_char_with_count : run_vi
  [SNew;
   SIns (str "abcabc");
   S_find_char 0 97%N 2 (Some 3)] = true.
Proof. vm_compute. reflexivity. Qed.

(** src/keymap/vi.rs:3512 *)
Example vi_t_test_find_char_not_found : run_vi
  [SNew;
   SIns (str "abcdefg");
   S_find_char 0 122%N 1 None] = true.
Proof. vm_compute. reflexivity. Qed.

(** src/keymap/vi.rs:3521 *)
Example vi_t_test_find_char_rev : run_vi
  [SNew;
   SIns (str "abcdefg");
   S_find_char_rev 6 100%N 1 (Some 3)] = true.
Proof. vm_compute. reflexivity. Qed.

(** src/keymap/vi.rs:3533 *)
Example vi_t_test_find_char_rev_with_start : run_vi
  [SNew;
   SIns (str "abcabc");
   S_find_char_rev 5 99%N 1 (Some 2)] = true.
Proof. vm_compute. reflexivity. Qed.

(** src/keymap/vi.rs:3545 *)
Example vi_t_test_find_char_rev_with_count : run_vi
  [SNew;
   SIns (str "abcabc");
   S_find_char_rev 6 99%N 2 (Some 2)] = true.
Proof. vm_compute. reflexivity. Qed.

(** src/keymap/vi.rs:3557 *)
Example vi_t_test_find_char_rev_not_found : run_vi
  [SNew;
   SIns (str "abcdefg");
   S_find_char_rev 6 122%N 1 None] = true.
Proof. vm_compute. reflexivity. Qed.

(** src/keymap/vi.rs:3566 *)
Example vi_t_test_undo_with_counts : run_vi
  [SNew;
   SInit;
   SIns (str "abcdefg");
   SKeys [KEsc; KChar 120%N; KChar 120%N; KChar 120%N; KChar 51%N; KChar 117%N];
   SText (str "abcdefg")] = true.
Proof. vm_compute. reflexivity. Qed.

(** src/keymap/vi.rs:3583 *)
Example vi_t_test_redo_with_counts : run_vi
  [SNew;
   SInit;
   SIns (str "abcdefg");
   SKeys [KEsc; KChar 120%N; KChar 120%N; KChar 120%N; KChar 117%N; KChar 117%N; KChar 117%N];
   S_redo;
   S_redo;
   SText (str "abcde")] = true.
Proof. vm_compute. reflexivity. Qed.

(** src/keymap/vi.rs:3612 *)
Example vi_t_change_word_ge_ws : run_vi
  [SNew;
   SInit;
   SIns (str "change some words");
   SKeys [KEsc; KChar 99%N; KChar 103%N; KChar 69%N; KChar 101%N; KChar 116%N; KChar 104%N; KChar 105%N; KChar 110%N; KChar 103%N; KEsc];
   SText (str "change something")] = true.
Proof. vm_compute. reflexivity. Qed.

(** src/keymap/vi.rs:3643 *)
Example vi_t_undo_insert : run_vi
  [SNew;
   SInit;
   SKeys [KChar 105%N; KChar 110%N; KChar 115%N; KChar 101%N; KChar 114%N; KChar 116%N; KEsc; KChar 117%N];
   SText (str "")] = true.
Proof. vm_compute. reflexivity. Qed.

(** src/keymap/vi.rs:3670 *)
Example vi_t_undo_insert2 : run_vi
  [SNew;
   SInit;
   SKeys [KEsc; KChar 105%N; KChar 105%N; KChar 110%N; KChar 115%N; KChar 101%N; KChar 114%N; KChar 116%N; KEsc; KChar 117%N];
   SText (str "")] = true.
Proof. vm_compute. reflexivity. Qed.

(** src/keymap/vi.rs:3699 *)
Example vi_t_undo_insert_with_history : run_vi
  [SHist (str "insert something");
   SNew;
   SInit;
   SKeys [KEsc; KChar 105%N; KChar 105%N; KChar 110%N; KChar 115%N; KChar 101%N; KChar 114%N; KChar 116%N; KUp; KChar 104%N; KChar 105%N; KChar 115%N; KChar 116%N; KChar 111%N; KChar 114%N; KChar 121%N; KDown; KChar 32%N; KChar 116%N; KChar 101%N; KChar 120%N; KChar 116%N; KEsc; KChar 117%N];
   SText (str "insert")] = true.
Proof. vm_compute. reflexivity. Qed.

(** src/keymap/vi.rs:3746 *)
Example vi_t_undo_insert_with_history2 : run_vi
  [SNew;
   SInit;
   SKeys [KEsc; KChar 105%N; KChar 105%N; KChar 110%N; KChar 115%N; KChar 101%N; KChar 114%N; KChar 116%N; KUp; KEsc; KDown; KChar 117%N];
   SText (str "")] = true.
Proof. vm_compute. reflexivity. Qed.

(** src/keymap/vi.rs:3777 *)
Example vi_t_undo_insert_with_movement_reset : run_vi
  [SNew;
   SInit;
   SKeys [KEsc; KChar 105%N; KChar 105%N; KChar 110%N; KChar 115%N; KChar 101%N; KChar 114%N; KChar 116%N; KLeft; KRight; KChar 32%N; KChar 116%N; KChar 101%N; KChar 120%N; KChar 116%N; KEsc; KChar 117%N];
   SText (str "insert")] = true.
Proof. vm_compute. reflexivity. Qed.

(** src/keymap/vi.rs:3814 *)
Example vi_t_undo_3x : run_vi
  [SNew;
   SInit;
   SIns (str "rm some words");
   SKeys [KEsc; KChar 48%N; KChar 51%N; KChar 120%N; KChar 117%N];
   SText (str "rm some words")] = true.
Proof. vm_compute. reflexivity. Qed.

(** src/keymap/vi.rs:3831 *)
Example vi_t_undo_insert_with_count : run_vi
  [SNew;
   SInit;
   SKeys [KChar 105%N; KChar 110%N; KChar 115%N; KChar 101%N; KChar 114%N; KChar 116%N; KEsc; KChar 51%N; KChar 105%N; KChar 105%N; KChar 110%N; KChar 115%N; KChar 101%N; KChar 114%N; KChar 116%N; KEsc; KChar 117%N];
   SText (str "insert")] = true.
Proof. vm_compute. reflexivity. Qed.

(** src/keymap/vi.rs:3867 *)
Example vi_t_undo_insert_with_repeat : run_vi
  [SNew;
   SInit;
   SKeys [KChar 105%N; KChar 110%N; KChar 115%N; KChar 101%N; KChar 114%N; KChar 116%N; KEsc; KChar 51%N; KChar 46%N; KEsc; KChar 117%N];
   SText (str "insert")] = true.
Proof. vm_compute. reflexivity. Qed.

(** src/keymap/vi.rs:3897 *)
Example vi_t_undo_s_with_count : run_vi
  [SNew;
   SInit;
   SIns (str "replace some words");
   SKeys [KEsc; KChar 48%N; KChar 56%N; KChar 115%N; KChar 111%N; KChar 107%N; KEsc; KChar 117%N];
   SText (str "replace some words")] = true.
Proof. vm_compute. reflexivity. Qed.

(** src/keymap/vi.rs:3925 *)
Example vi_t_undo_multiple_groups : run_vi
  [SNew;
   SInit;
   SIns (str "replace some words");
   SKeys [KEsc; KChar 65%N; KChar 32%N; KChar 104%N; KChar 101%N; KChar 114%N; KChar 101%N; KEsc; KChar 48%N; KChar 56%N; KChar 115%N; KChar 111%N; KChar 107%N; KEsc; KChar 50%N; KChar 117%N];
   SText (str "replace some words")] = true.
Proof. vm_compute. reflexivity. Qed.

(** src/keymap/vi.rs:3961 *)
Example vi_t_undo_r_command_with_count : run_vi
  [SNew;
   SInit;
   SIns (str "replace some words");
   SKeys [KEsc; KChar 48%N; KChar 56%N; KChar 114%N; KChar 32%N; KChar 117%N];
   SText (str "replace some words")] = true.
Proof. vm_compute. reflexivity. Qed.

(** src/keymap/vi.rs:3979 *)
Example vi_t_tilde_basic : run_vi
  [SNew;
   SInit;
   SIns (str "tilde");
   SKeys [KEsc; KChar 126%N];
   SText (str "tildE")] = true.
Proof. vm_compute. reflexivity. Qed.

(** src/keymap/vi.rs:3992 *)
Example vi_t_tilde_basic2 : run_vi
  [SNew;
   SInit;
   SIns (str "tilde");
   SKeys [KEsc; KChar 126%N; KChar 126%N];
   SText (str "tilde")] = true.
Proof. vm_compute. reflexivity. Qed.

(** src/keymap/vi.rs:4005 *)
Example vi_t_tilde_move : run_vi
  [SNew;
   SInit;
   SIns (str "tilde");
   SKeys [KEsc; KChar 48%N; KChar 126%N; KChar 126%N];
   SText (str "TIlde")] = true.
Proof. vm_compute. reflexivity. Qed.

(** src/keymap/vi.rs:4022 *)
Example vi_t_tilde_repeat : run_vi
  [SNew;
   SInit;
   SIns (str "tilde");
   SKeys [KEsc; KChar 126%N; KChar 46%N];
   SText (str "tilde")] = true.
Proof. vm_compute. reflexivity. Qed.

(** src/keymap/vi.rs:4035 *)
Example vi_t_tilde_count : run_vi
  [SNew;
   SInit;
   SIns (str "tilde");
   SKeys [KEsc; KChar 48%N; KChar 49%N; KChar 48%N; KChar 126%N];
   SText (str "TILDE")] = true.
Proof. vm_compute. reflexivity. Qed.

(** src/keymap/vi.rs:4052 *)
Example vi_t_tilde_count_short : run_vi
  [SNew;
   SInit;
   SIns (str "TILDE");
   SKeys [KEsc; KChar 48%N; KChar 50%N; KChar 126%N];
   SText (str "tiLDE")] = true.
Proof. vm_compute. reflexivity. Qed.

(** src/keymap/vi.rs:4069 *)
Example vi_t_tilde_nocase : run_vi
  [SNew;
   SInit;
   SIns (str "ti_lde");
   SKeys [KEsc; KChar 48%N; KChar 54%N; KChar 126%N];
   SText (str "TI_LDE")] = true.
Proof. vm_compute. reflexivity. Qed.

(** src/keymap/vi.rs:4086 *)
Example vi_t_ctrl_h : run_vi
  [SNew;
   SInit;
   SIns (str "not empty");
   SKeys [KCtrl 104%N];
   SText (str "not empt")] = true.
Proof. vm_compute. reflexivity. Qed.

(** src/keymap/vi.rs:4100 *)
Example vi_t_repeat_char_move_no_char : run_vi
  [SNew;
   SInit;
   SIns (str "abc defg");
   SKeys [KEsc; KChar 36%N; KChar 59%N];
   SCursor (7)] = true.
Proof. vm_compute. reflexivity. Qed.

(** src/keymap/emacs.rs:207 *)
Example emacs_t_enter_is_done : run_emacs
  [SNew;
   SIns (str "done");
   SCursor (4);
   SKeysDone [KChar 10%N];
   SCursor (4);
   SText (str "done")] = true.
Proof. vm_compute. reflexivity. Qed.

(** src/keymap/emacs.rs:221 *)
Example emacs_t_move_cursor_left : run_emacs
  [SNew;
   SIns (str "let");
   SCursor (3);
   SKeys [KLeft; KChar 102%N];
   SCursor (3);
   SText (str "left")] = true.
Proof. vm_compute. reflexivity. Qed.

(** src/keymap/emacs.rs:235 *)
Example emacs_t_move_word : run_emacs
  [SNew;
   SIns (str "abc def ghi");
   SCursor (11);
   SKeys [KAlt 98%N];
   SCursor (8);
   SKeys [KAlt 98%N; KAlt 102%N];
   SCursor (7)] = true.
Proof. vm_compute. reflexivity. Qed.

(** src/keymap/emacs.rs:255 *)
Example emacs_t_cursor_movement : run_emacs
  [SNew;
   SIns (str "right");
   SCursor (5);
   SKeys [KLeft; KLeft; KRight];
   SCursor (4)] = true.
Proof. vm_compute. reflexivity. Qed.

(** src/keymap/emacs.rs:268 *)
Example emacs_t_ctrl_h : run_emacs
  [SNew;
   SIns (str "not empty");
   SKeys [KCtrl 104%N];
   SText (str "not empt")] = true.
Proof. vm_compute. reflexivity. Qed.

(** src/editor.rs:1229 *)
Example editor_t_delete_all_after_cursor_undo : run_vi
  [SNew;
   SIns (str "delete all of this");
   S_move_cursor_to_start_of_line;
   S_delete_all_after_cursor;
   S_undo;
   SText (str "delete all of this")] = true.
Proof. vm_compute. reflexivity. Qed.

(** src/editor.rs:1241 *)
Example editor_t_move_cursor_left : run_vi
  [SNew;
   SIns (str "let");
   SCursor (3);
   S_move_cursor_left 1;
   SCursor (2);
   SIns [102%N];
   SCursor (3);
   SText (str "left")] = true.
Proof. vm_compute. reflexivity. Qed.

(** src/editor.rs:1256 *)
Example editor_t_cursor_movement : run_vi
  [SNew;
   SIns (str "right");
   SCursor (5);
   S_move_cursor_left 2;
   S_move_cursor_right 1;
   SCursor (4)] = true.
Proof. vm_compute. reflexivity. Qed.

(** src/editor.rs:1268 *)
Example editor_t_delete_until_backwards : run_vi
  [SNew;
   SIns (str "right");
   SCursor (5);
   S_delete_until 0;
   SCursor (0);
   SText (str "")] = true.
Proof. vm_compute. reflexivity. Qed.

(** src/editor.rs:1280 *)
Example editor_t_delete_until_forwards : run_vi
  [SNew;
   SIns (str "right");
   SSetCursor 0;
   S_delete_until 5;
   SCursor (0);
   SText (str "")] = true.
Proof. vm_compute. reflexivity. Qed.

(** src/editor.rs:1292 *)
Example editor_t_delete_until : run_vi
  [SNew;
   SIns (str "right");
   SSetCursor 4;
   S_delete_until 1;
   SCursor (1);
   SText (str "rt")] = true.
Proof. vm_compute. reflexivity. Qed.

(** src/editor.rs:1304 *)
Example editor_t_delete_until_inclusive : run_vi
  [SNew;
   SIns (str "right");
   SSetCursor 4;
   S_delete_until_inclusive 1;
   SCursor (1);
   SText (str "r")] = true.
Proof. vm_compute. reflexivity. Qed.

(** ** src/buffer.rs *)
Inductive bstep :=
| BIns (pos : option nat) (t : text) | BTrunc (n : option nat) | BRem (a b : nat)
| B_undo | B_redo | B_start_undo_group | B_end_undo_group
| BDid_undo (b : bool) | BDid_redo (b : bool) | BText (t : text).
Fixpoint run_bsteps (l : list bstep) (b : buffer) : bool :=
  match l with
  | [] => true
  | s :: l' =>
    let go r := match r with Val b' => run_bsteps l' b' | Pan _ => false end in
    let pos o := match o with Some n => n | None => num_chars b end in
    match s with
    | BIns p t => go (buf_insert b (pos p) t)
    | BTrunc n => go (buf_truncate b (pos n))
    | BRem x y => go (rbind (buf_remove b x y) (fun r => Val (snd r)))
    | B_undo => go (rbind (buf_undo b) (fun r => Val (snd r)))
    | B_redo => go (rbind (buf_redo b) (fun r => Val (snd r)))
    | B_start_undo_group => run_bsteps l' (start_undo_group b)
    | B_end_undo_group => run_bsteps l' (end_undo_group b)
    | BDid_undo d => match buf_undo b with
                     | Val (x, b') => if Bool.eqb x d then run_bsteps l' b' else false
                     | _ => false end
    | BDid_redo d => match buf_redo b with
                     | Val (x, b') => if Bool.eqb x d then run_bsteps l' b' else false
                     | _ => false end
    | BText t => if text_eqb (data b) t then run_bsteps l' b else false
    end
  end.
Definition run_buf (l : list bstep) : bool := run_bsteps l buf_new.

(** src/buffer.rs:356 *)
Example buf_t_test_insert : run_buf
  [BIns (Some 0) [97%N; 98%N; 99%N; 100%N; 101%N; 102%N; 103%N]; BText (str "abcdefg")] = true.
Proof. vm_compute. reflexivity. Qed.

(** src/buffer.rs:363 *)
Example buf_t_test_truncate_empty : run_buf
  [BTrunc (Some 0); BText (str "")] = true.
Proof. vm_compute. reflexivity. Qed.

(** src/buffer.rs:370 *)
Example buf_t_test_truncate_all : run_buf
  [BIns (Some 0) [97%N; 98%N; 99%N; 100%N; 101%N; 102%N; 103%N]; BTrunc (Some 0); BText (str "")] = true.
Proof. vm_compute. reflexivity. Qed.

(** src/buffer.rs:378 *)
Example buf_t_test_truncate_end : run_buf
  [BIns (Some 0) [97%N; 98%N; 99%N; 100%N; 101%N; 102%N; 103%N]; BTrunc None; BText (str "abcdefg")] = true.
Proof. vm_compute. reflexivity. Qed.

(** src/buffer.rs:387 *)
Example buf_t_test_truncate_part : run_buf
  [BIns (Some 0) [97%N; 98%N; 99%N; 100%N; 101%N; 102%N; 103%N]; BTrunc (Some 3); BText (str "abc")] = true.
Proof. vm_compute. reflexivity. Qed.

(** src/buffer.rs:395 *)
Example buf_t_test_truncate_empty_undo : run_buf
  [BTrunc (Some 0); B_undo; BText (str "")] = true.
Proof. vm_compute. reflexivity. Qed.

(** src/buffer.rs:403 *)
Example buf_t_test_truncate_all_then_undo : run_buf
  [BIns (Some 0) [97%N; 98%N; 99%N; 100%N; 101%N; 102%N; 103%N]; BTrunc (Some 0); B_undo; BText (str "abcdefg")] = true.
Proof. vm_compute. reflexivity. Qed.

(** src/buffer.rs:412 *)
Example buf_t_test_truncate_end_then_undo : run_buf
  [BIns (Some 0) [97%N; 98%N; 99%N; 100%N; 101%N; 102%N; 103%N]; BTrunc None; B_undo; BText (str "abcdefg")] = true.
Proof. vm_compute. reflexivity. Qed.

(** src/buffer.rs:422 *)
Example buf_t_test_truncate_part_then_undo : run_buf
  [BIns (Some 0) [97%N; 98%N; 99%N; 100%N; 101%N; 102%N; 103%N]; BTrunc (Some 3); B_undo; BText (str "abcdefg")] = true.
Proof. vm_compute. reflexivity. Qed.

(** src/buffer.rs:431 *)
Example buf_t_test_undo_group : run_buf
  [BIns (Some 0) [97%N; 98%N; 99%N; 100%N; 101%N; 102%N; 103%N]; B_start_undo_group; BRem 0 1; BRem 0 1; BRem 0 1; B_end_undo_group; BDid_undo true; BText (str "abcdefg")] = true.
Proof. vm_compute. reflexivity. Qed.

(** src/buffer.rs:444 *)
Example buf_t_test_redo_group : run_buf
  [BIns (Some 0) [97%N; 98%N; 99%N; 100%N; 101%N; 102%N; 103%N]; B_start_undo_group; BRem 0 1; BRem 0 1; BRem 0 1; B_end_undo_group; BDid_undo true; BDid_redo true; BText (str "defg")] = true.
Proof. vm_compute. reflexivity. Qed.

(** src/buffer.rs:458 *)
Example buf_t_test_nested_undo_group : run_buf
  [BIns (Some 0) [97%N; 98%N; 99%N; 100%N; 101%N; 102%N; 103%N]; B_start_undo_group; BRem 0 1; B_start_undo_group; BRem 0 1; B_end_undo_group; BRem 0 1; B_end_undo_group; BDid_undo true; BText (str "abcdefg")] = true.
Proof. vm_compute. reflexivity. Qed.

(** src/buffer.rs:473 *)
Example buf_t_test_nested_redo_group : run_buf
  [BIns (Some 0) [97%N; 98%N; 99%N; 100%N; 101%N; 102%N; 103%N]; B_start_undo_group; BRem 0 1; B_start_undo_group; BRem 0 1; B_end_undo_group; BRem 0 1; B_end_undo_group; BDid_undo true; BDid_redo true; BText (str "defg")] = true.
Proof. vm_compute. reflexivity. Qed.

(** src/buffer.rs:490-555 *)
Definition bs_ (t : String.string) : buffer := buf_of (str t).
Arguments bs_ t%string.
Example buf_t_predicates :
  (starts_with (bs_ "abcdefg") (bs_ "abc"), starts_with (bs_ "abc") (bs_ "abc"),
   starts_with (bs_ "abcdefg") (bs_ "xyz"),
   contains (bs_ "abcdefg") (bs_ "abc"), contains (bs_ "abcdefg") (bs_ "cde"),
   contains (bs_ "abcdefg") (bs_ "efg"), contains (bs_ "abcdefg") (bs_ "xbc"),
   contains (bs_ "abcdefg") (bs_ "abd"), length (fst (print_rest (bs_ "abcdefg") 3)))
  = (true, false, false, true, true, true, false, false, 4).
Proof. vm_compute. reflexivity. Qed.

(** src/keymap/mod.rs:107-146, with a key map that does nothing *)
Definition null_core : env -> key -> MK unit unit := fun _ _ => ret tt.
Definition null_run (t : text) (k : key) : option ioerr :=
  match editor_new test_env (mkPrompt (str "prompt") None) None buf_new hist_new no_fs [] [] with
  | ORet _ e =>
    match bind (lift (insert_str_after_cursor test_env t))
               (fun _ => handle_key null_core test_env k) (tt, e) with
    | OErr e _ => Some e
    | _ => None
    end
  | _ => None
  end.
Example mod_t_ctrl_d_empty : null_run [] (KCtrl (ch "d")) = Some EUnexpectedEof.
Proof. vm_compute. reflexivity. Qed.
Example mod_t_ctrl_d_non_empty : null_run (str "not empty") (KCtrl (ch "d")) = None.
Proof. vm_compute. reflexivity. Qed.
Example mod_t_ctrl_c : null_run [] (KCtrl (ch "c")) = Some EInterrupted.
Proof. vm_compute. reflexivity. Qed.

(** src/test.rs *)
Example test_get_cursor_position :
  map (fun '(t, c) => cpos_get c (get_buffer_words t))
      [(str "hi", 0); (str "hi", 1); (str "hi", 2); (str "abc  abc", 4); (str "abc  abc", 5);
       (str "abc  abc", 6); (str "abc  abc", 8); (str " a", 0); (str "a ", 2)]
  = map Val [OnWordLeftEdge 0; InWord 0; OnWordRightEdge 0; InSpace (Some 0) (Some 1);
             OnWordLeftEdge 1; InWord 1; OnWordRightEdge 1; InSpace None (Some 0);
             InSpace (Some 0) None].
Proof. vm_compute. reflexivity. Qed.

Example test_buffer_actions :
  rbind (act_do (AInsert 0 (str "hi")) []) (act_do (ARemove 1 (str "."))) = Val (str "h").
Proof. vm_compute. reflexivity. Qed.

Definition push_all (w : fs) (h : history) (l : list text) : history * fs :=
  fold_left (fun '(h, w) t => hist_push w h (buf_of t)) l (h, w).

Example test_history_indexing :
  map data (buffers (fst (push_all no_fs hist_new [str "a"; str "b"; str "c"])))
  = [str "a"; str "b"; str "c"].
Proof. vm_compute. reflexivity. Qed.

Example test_in_memory_history_truncating :
  let l := [str "a"; str "b"] in
  let '(h, w) := push_all no_fs (set_max_buffers_size hist_new 2) (l ++ l ++ l ++ l) in
  hist_len (fst (commit_to_file w h)) = 2.
Proof. vm_compute. reflexivity. Qed.

Definition tmp_file : text := str "/tmp/liner_test_file".
Definition tmp_fs : fs := mkFs (fun _ => None) (fun _ => true).

Example test_in_file_history_truncating :
  let '(r, h0, w0) := set_file_name_and_load_history tmp_fs hist_new tmp_file in
  let '(h1, w1) := push_all w0 (set_max_file_size h0 5)
                     (map (fun c => [c]) (str "abcdefghijklmnopqrstuvwxy")) in
  let '(_, w2) := commit_to_file w1 h1 in
  option_map (fun bs => length (file_lines bs)) (fs_open w2 tmp_file) = Some 5.
Proof. vm_compute. reflexivity. Qed.

Example test_reading_from_file :
  let w := fs_put tmp_fs tmp_file (mkFile [97; 10; 98; 10; 99; 10; 100; 10]%N true true) in
  let '(_, h, _) := set_file_name_and_load_history w hist_new tmp_file in
  map data (buffers h) = [str "a"; str "b"; str "c"; str "d"].
Proof. vm_compute. reflexivity. Qed.
