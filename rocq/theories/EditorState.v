(** State of the line editor (src/editor.rs) and its surroundings. *)
From Verif Require Import Base Utf8 BufferModel UtilModel HistoryModel.

(** src/editor.rs:14-25 [ViPromptMode], [ViStatus] *)
Inductive vimode := VPNormal | VPInsert.
Record vistatus := mkVis { vs_mode : vimode; vs_normal : text; vs_insert : text }.

(** src/editor.rs:40-46, 59-67 [as_str], [Display] *)
Definition vs_str (v : vistatus) : text :=
  match vs_mode v with VPNormal => vs_normal v | VPInsert => vs_insert v end.

(** src/editor.rs:49-57 [ViStatus::default] *)
Definition vs_default : vistatus := mkVis VPInsert (str "[N] ") (str "[I] ").

(** src/editor.rs:89-92 [struct Prompt] *)
Record prompt_t := mkPrompt { pr_prompt : text; pr_vi : option vistatus }.

(** src/editor.rs:103-108 [prefix] *)
Definition pr_prefix (p : prompt_t) : text :=
  match pr_vi p with Some v => vs_str v | None => [] end.

(** src/editor.rs:111-118 [Display for Prompt] *)
Definition pr_string (p : prompt_t) : text :=
  match pr_vi p with Some v => vs_str v ++ pr_prompt p | None => pr_prompt p end.

(** What is written to the terminal, as a list of tokens.  [render] gives the
    characters of each token (termion's escape sequences). *)
Inductive tok :=
| TStr (t : text)      (* text copied to the output *)
| TModes               (* "\x1B[?1000l\x1B[?1l" *)
| TUp (n : N)          (* cursor::Up(n) *)
| TLeft (n : N)        (* cursor::Left(n) *)
| TRight (n : N)       (* cursor::Right(n) *)
| TCR                  (* "\r" *)
| TCRLF                (* "\r\n" *)
| TClearAfter          (* clear::AfterCursor *)
| TClearAll            (* clear::All *)
| TGoto11              (* cursor::Goto(1, 1) *)
| TFg (n : nat)        (* color::X.fg_str() *)
| TBg (n : nat)        (* color::X.bg_str() *)
| TFgReset             (* color::Reset.fg_str() *)
| TBgReset.            (* color::Reset.bg_str() *)

(** Decimal numerals ([Display] of unsigned integers). *)
Fixpoint dec_digits (fuel : nat) (n : N) (acc : text) : text :=
  match fuel with
  | O => acc
  | S f =>
    let acc' := (48 + n mod 10)%N :: acc in
    if (n <? 10)%N then acc' else dec_digits f (n / 10)%N acc'
  end.
(** The number of binary digits bounds the number of decimal digits. *)
Definition decimal (n : N) : text := dec_digits (S (N.size_nat n)) n [].

Definition csi (t : text) : text := c_esc :: ch "[" :: t.

(** Color numbers: Black 0, Red 1, Green 2, Yellow 3, White 7 (termion). *)
Definition fg_str (n : nat) : text := csi (str "38;5;" ++ decimal (N.of_nat n) ++ str "m").
Definition bg_str (n : nat) : text := csi (str "48;5;" ++ decimal (N.of_nat n) ++ str "m").
Definition fg_reset : text := csi (str "39m").
Definition bg_reset : text := csi (str "49m").

Definition render_tok (t : tok) : text :=
  match t with
  | TStr s => s
  | TModes => csi (str "?1000l") ++ csi (str "?1l")
  | TUp n => csi (decimal n ++ str "A")
  | TLeft n => csi (decimal n ++ str "D")
  | TRight n => csi (decimal n ++ str "C")
  | TCR => [c_cr]
  | TCRLF => [c_cr; c_nl]
  | TClearAfter => csi (str "J")
  | TClearAll => csi (str "2J")
  | TGoto11 => csi (str "1;1H")
  | TFg n => fg_str n
  | TBg n => bg_str n
  | TFgReset => fg_reset
  | TBgReset => bg_reset
  end.
Definition render_toks (l : list tok) : text := flat_map render_tok l.

(** Surroundings of one call: Unicode tables, the column count reported by
    [termion::terminal_size] (None: the call fails), whether writes to the
    [Tty] succeed, [Tty::width], the word divider and the completer.
    [Completer::on_event] is the default no-op. *)
Record env := mkEnv {
  e_uni : unicode;
  e_size : option nat;
  e_wok : bool;
  e_ttywidth : option nat;
  e_words : text -> list (nat * nat);
  e_complete : text -> list text
}.

(** src/editor.rs:173-222 [struct Editor], with the parts of the context the
    code uses: [prompt], [closure], [cursor], [new_buf] (ed_new), [hist_buf]
    (ed_hist), [hist_buf_valid] (ed_hvalid), [cur_history_loc] (ed_loc),
    [term_cursor_line] (ed_tcl), [show_completions_hint] (ed_hint),
    [show_autosuggestions] (ed_showauto), [no_eol] (ed_noeol),
    [reverse_search] (ed_rev), [forward_search] (ed_fwd), [buffer_changed]
    (ed_changed), [history_subset_index] (ed_subset), [history_subset_loc]
    (ed_subloc), [autosuggestion] (ed_sugg), [history_fresh] (ed_fresh), then
    the context: its history, the file system, everything written with
    [fmt::Write] into [Context::buffer] (ed_cbuf) and everything written to the
    terminal (ed_tty). *)
Record ed := mkEd {
  ed_prompt : prompt_t;
  ed_closure : option (text -> text);
  ed_cursor : nat;
  ed_new : buffer;
  ed_hist : buffer;
  ed_hvalid : bool;
  ed_loc : option nat;
  ed_tcl : nat;
  ed_hint : option (list text * option nat);
  ed_showauto : bool;
  ed_noeol : bool;
  ed_rev : bool;
  ed_fwd : bool;
  ed_changed : bool;
  ed_subset : list nat;
  ed_subloc : option nat;
  ed_sugg : option buffer;
  ed_fresh : bool;
  ed_history : history;
  ed_fs : fs;
  ed_cbuf : list tok;
  ed_tty : list tok
}.

Definition set_prompt (v : prompt_t) (s : ed) : ed :=
  mkEd v (ed_closure s) (ed_cursor s) (ed_new s) (ed_hist s) (ed_hvalid s) (ed_loc s) (ed_tcl s) (ed_hint s) (ed_showauto s) (ed_noeol s) (ed_rev s) (ed_fwd s) (ed_changed s) (ed_subset s) (ed_subloc s) (ed_sugg s) (ed_fresh s) (ed_history s) (ed_fs s) (ed_cbuf s) (ed_tty s).
Definition set_closure (v : option (text -> text)) (s : ed) : ed :=
  mkEd (ed_prompt s) v (ed_cursor s) (ed_new s) (ed_hist s) (ed_hvalid s) (ed_loc s) (ed_tcl s) (ed_hint s) (ed_showauto s) (ed_noeol s) (ed_rev s) (ed_fwd s) (ed_changed s) (ed_subset s) (ed_subloc s) (ed_sugg s) (ed_fresh s) (ed_history s) (ed_fs s) (ed_cbuf s) (ed_tty s).
Definition set_cursor (v : nat) (s : ed) : ed :=
  mkEd (ed_prompt s) (ed_closure s) v (ed_new s) (ed_hist s) (ed_hvalid s) (ed_loc s) (ed_tcl s) (ed_hint s) (ed_showauto s) (ed_noeol s) (ed_rev s) (ed_fwd s) (ed_changed s) (ed_subset s) (ed_subloc s) (ed_sugg s) (ed_fresh s) (ed_history s) (ed_fs s) (ed_cbuf s) (ed_tty s).
Definition set_new (v : buffer) (s : ed) : ed :=
  mkEd (ed_prompt s) (ed_closure s) (ed_cursor s) v (ed_hist s) (ed_hvalid s) (ed_loc s) (ed_tcl s) (ed_hint s) (ed_showauto s) (ed_noeol s) (ed_rev s) (ed_fwd s) (ed_changed s) (ed_subset s) (ed_subloc s) (ed_sugg s) (ed_fresh s) (ed_history s) (ed_fs s) (ed_cbuf s) (ed_tty s).
Definition set_hist (v : buffer) (s : ed) : ed :=
  mkEd (ed_prompt s) (ed_closure s) (ed_cursor s) (ed_new s) v (ed_hvalid s) (ed_loc s) (ed_tcl s) (ed_hint s) (ed_showauto s) (ed_noeol s) (ed_rev s) (ed_fwd s) (ed_changed s) (ed_subset s) (ed_subloc s) (ed_sugg s) (ed_fresh s) (ed_history s) (ed_fs s) (ed_cbuf s) (ed_tty s).
Definition set_hvalid (v : bool) (s : ed) : ed :=
  mkEd (ed_prompt s) (ed_closure s) (ed_cursor s) (ed_new s) (ed_hist s) v (ed_loc s) (ed_tcl s) (ed_hint s) (ed_showauto s) (ed_noeol s) (ed_rev s) (ed_fwd s) (ed_changed s) (ed_subset s) (ed_subloc s) (ed_sugg s) (ed_fresh s) (ed_history s) (ed_fs s) (ed_cbuf s) (ed_tty s).
Definition set_loc (v : option nat) (s : ed) : ed :=
  mkEd (ed_prompt s) (ed_closure s) (ed_cursor s) (ed_new s) (ed_hist s) (ed_hvalid s) v (ed_tcl s) (ed_hint s) (ed_showauto s) (ed_noeol s) (ed_rev s) (ed_fwd s) (ed_changed s) (ed_subset s) (ed_subloc s) (ed_sugg s) (ed_fresh s) (ed_history s) (ed_fs s) (ed_cbuf s) (ed_tty s).
Definition set_tcl (v : nat) (s : ed) : ed :=
  mkEd (ed_prompt s) (ed_closure s) (ed_cursor s) (ed_new s) (ed_hist s) (ed_hvalid s) (ed_loc s) v (ed_hint s) (ed_showauto s) (ed_noeol s) (ed_rev s) (ed_fwd s) (ed_changed s) (ed_subset s) (ed_subloc s) (ed_sugg s) (ed_fresh s) (ed_history s) (ed_fs s) (ed_cbuf s) (ed_tty s).
Definition set_hint (v : option (list text * option nat)) (s : ed) : ed :=
  mkEd (ed_prompt s) (ed_closure s) (ed_cursor s) (ed_new s) (ed_hist s) (ed_hvalid s) (ed_loc s) (ed_tcl s) v (ed_showauto s) (ed_noeol s) (ed_rev s) (ed_fwd s) (ed_changed s) (ed_subset s) (ed_subloc s) (ed_sugg s) (ed_fresh s) (ed_history s) (ed_fs s) (ed_cbuf s) (ed_tty s).
Definition set_showauto (v : bool) (s : ed) : ed :=
  mkEd (ed_prompt s) (ed_closure s) (ed_cursor s) (ed_new s) (ed_hist s) (ed_hvalid s) (ed_loc s) (ed_tcl s) (ed_hint s) v (ed_noeol s) (ed_rev s) (ed_fwd s) (ed_changed s) (ed_subset s) (ed_subloc s) (ed_sugg s) (ed_fresh s) (ed_history s) (ed_fs s) (ed_cbuf s) (ed_tty s).
Definition set_noeol (v : bool) (s : ed) : ed :=
  mkEd (ed_prompt s) (ed_closure s) (ed_cursor s) (ed_new s) (ed_hist s) (ed_hvalid s) (ed_loc s) (ed_tcl s) (ed_hint s) (ed_showauto s) v (ed_rev s) (ed_fwd s) (ed_changed s) (ed_subset s) (ed_subloc s) (ed_sugg s) (ed_fresh s) (ed_history s) (ed_fs s) (ed_cbuf s) (ed_tty s).
Definition set_rev (v : bool) (s : ed) : ed :=
  mkEd (ed_prompt s) (ed_closure s) (ed_cursor s) (ed_new s) (ed_hist s) (ed_hvalid s) (ed_loc s) (ed_tcl s) (ed_hint s) (ed_showauto s) (ed_noeol s) v (ed_fwd s) (ed_changed s) (ed_subset s) (ed_subloc s) (ed_sugg s) (ed_fresh s) (ed_history s) (ed_fs s) (ed_cbuf s) (ed_tty s).
Definition set_fwd (v : bool) (s : ed) : ed :=
  mkEd (ed_prompt s) (ed_closure s) (ed_cursor s) (ed_new s) (ed_hist s) (ed_hvalid s) (ed_loc s) (ed_tcl s) (ed_hint s) (ed_showauto s) (ed_noeol s) (ed_rev s) v (ed_changed s) (ed_subset s) (ed_subloc s) (ed_sugg s) (ed_fresh s) (ed_history s) (ed_fs s) (ed_cbuf s) (ed_tty s).
Definition set_changed (v : bool) (s : ed) : ed :=
  mkEd (ed_prompt s) (ed_closure s) (ed_cursor s) (ed_new s) (ed_hist s) (ed_hvalid s) (ed_loc s) (ed_tcl s) (ed_hint s) (ed_showauto s) (ed_noeol s) (ed_rev s) (ed_fwd s) v (ed_subset s) (ed_subloc s) (ed_sugg s) (ed_fresh s) (ed_history s) (ed_fs s) (ed_cbuf s) (ed_tty s).
Definition set_subset (v : list nat) (s : ed) : ed :=
  mkEd (ed_prompt s) (ed_closure s) (ed_cursor s) (ed_new s) (ed_hist s) (ed_hvalid s) (ed_loc s) (ed_tcl s) (ed_hint s) (ed_showauto s) (ed_noeol s) (ed_rev s) (ed_fwd s) (ed_changed s) v (ed_subloc s) (ed_sugg s) (ed_fresh s) (ed_history s) (ed_fs s) (ed_cbuf s) (ed_tty s).
Definition set_subloc (v : option nat) (s : ed) : ed :=
  mkEd (ed_prompt s) (ed_closure s) (ed_cursor s) (ed_new s) (ed_hist s) (ed_hvalid s) (ed_loc s) (ed_tcl s) (ed_hint s) (ed_showauto s) (ed_noeol s) (ed_rev s) (ed_fwd s) (ed_changed s) (ed_subset s) v (ed_sugg s) (ed_fresh s) (ed_history s) (ed_fs s) (ed_cbuf s) (ed_tty s).
Definition set_sugg (v : option buffer) (s : ed) : ed :=
  mkEd (ed_prompt s) (ed_closure s) (ed_cursor s) (ed_new s) (ed_hist s) (ed_hvalid s) (ed_loc s) (ed_tcl s) (ed_hint s) (ed_showauto s) (ed_noeol s) (ed_rev s) (ed_fwd s) (ed_changed s) (ed_subset s) (ed_subloc s) v (ed_fresh s) (ed_history s) (ed_fs s) (ed_cbuf s) (ed_tty s).
Definition set_fresh (v : bool) (s : ed) : ed :=
  mkEd (ed_prompt s) (ed_closure s) (ed_cursor s) (ed_new s) (ed_hist s) (ed_hvalid s) (ed_loc s) (ed_tcl s) (ed_hint s) (ed_showauto s) (ed_noeol s) (ed_rev s) (ed_fwd s) (ed_changed s) (ed_subset s) (ed_subloc s) (ed_sugg s) v (ed_history s) (ed_fs s) (ed_cbuf s) (ed_tty s).
Definition set_history (v : history) (s : ed) : ed :=
  mkEd (ed_prompt s) (ed_closure s) (ed_cursor s) (ed_new s) (ed_hist s) (ed_hvalid s) (ed_loc s) (ed_tcl s) (ed_hint s) (ed_showauto s) (ed_noeol s) (ed_rev s) (ed_fwd s) (ed_changed s) (ed_subset s) (ed_subloc s) (ed_sugg s) (ed_fresh s) v (ed_fs s) (ed_cbuf s) (ed_tty s).
Definition set_fs (v : fs) (s : ed) : ed :=
  mkEd (ed_prompt s) (ed_closure s) (ed_cursor s) (ed_new s) (ed_hist s) (ed_hvalid s) (ed_loc s) (ed_tcl s) (ed_hint s) (ed_showauto s) (ed_noeol s) (ed_rev s) (ed_fwd s) (ed_changed s) (ed_subset s) (ed_subloc s) (ed_sugg s) (ed_fresh s) (ed_history s) v (ed_cbuf s) (ed_tty s).
Definition set_cbuf (v : list tok) (s : ed) : ed :=
  mkEd (ed_prompt s) (ed_closure s) (ed_cursor s) (ed_new s) (ed_hist s) (ed_hvalid s) (ed_loc s) (ed_tcl s) (ed_hint s) (ed_showauto s) (ed_noeol s) (ed_rev s) (ed_fwd s) (ed_changed s) (ed_subset s) (ed_subloc s) (ed_sugg s) (ed_fresh s) (ed_history s) (ed_fs s) v (ed_tty s).
Definition set_tty (v : list tok) (s : ed) : ed :=
  mkEd (ed_prompt s) (ed_closure s) (ed_cursor s) (ed_new s) (ed_hist s) (ed_hvalid s) (ed_loc s) (ed_tcl s) (ed_hint s) (ed_showauto s) (ed_noeol s) (ed_rev s) (ed_fwd s) (ed_changed s) (ed_subset s) (ed_subloc s) (ed_sugg s) (ed_fresh s) (ed_history s) (ed_fs s) (ed_cbuf s) v.
