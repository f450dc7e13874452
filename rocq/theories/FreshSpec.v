(** What a session writes to the terminal: redraw after redraw. *)
From Verif Require Import Base Utf8 BufferModel UtilModel HistoryModel EditorState EditorModel ScreenSpec GridSpec.

(** The redraws since [s0], the latest first: whether it was asked for by
    Ctrl-l, which forgets the row of the cursor, the state before it and the
    state after it.  Nothing else is written in between. *)
Record redraw := mkRedraw { rd_env : env; rd_clear : bool; rd_from : ed; rd_to : ed }.
Inductive drawn (s0 : ed) : list redraw -> ed -> Prop :=
| drawn_start : forall s, ed_tty s = ed_tty s0 -> ed_tcl s = ed_tcl s0 -> drawn s0 [] s
| drawn_more : forall l E (c : bool) s s1 s2 s', drawn s0 l s ->
    ed_tty s1 = ed_tty s -> ed_tcl s1 = (if c then 1 else ed_tcl s) -> display E s1 = ORet tt s2 ->
    ed_tty s' = ed_tty s2 -> ed_tcl s' = ed_tcl s2 ->
    drawn s0 (mkRedraw E c s1 s2 :: l) s'.

(** The two states have the same prompt, line, cursor and suggestion, and the
    same search. *)
Definition alike (s s' : ed) : Prop :=
  ed_prompt s' = ed_prompt s /\ ed_cursor s' = ed_cursor s /\ ed_sugg s' = ed_sugg s /\
  is_search s' = is_search s /\ (is_search s = true -> ed_subset s' = ed_subset s /\ ed_subloc s' = ed_subloc s) /\
  forall b, cur_buf s = Val b -> exists b', cur_buf s' = Val b' /\ data b' = data b.

(** A redraw as in C80: of narrow characters and without candidates. *)
Definition plain (W : nat) (cw : char -> nat) (d : redraw) : Prop :=
  exists prompt n pv t, terminal_width (e_size (rd_env d)) = Some W /\
    search_prompt (e_uni (rd_env d)) (rd_to d) = Val (prompt, n) /\ on_screen (rd_to d) t /\
    drawable W cw (e_uni (rd_env d)) prompt pv t (rd_to d) /\ ed_hint (rd_to d) = None /\
    (N.of_nat (ed_tcl (rd_from d)) < 65536)%N.
