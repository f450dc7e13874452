(** The terminal of ScreenSpec.v with a last row: at the bottom it scrolls. *)
From Verif Require Import Base Utf8 BufferModel UtilModel HistoryModel EditorState EditorModel ScreenSpec GridSpec FreshSpec.

(** Rows [0] to [Ht - 1] and what they show. *)
Record fterm := mkF { f_row : nat; f_col : nat; f_screen : screen; f_st : pstate }.

Section Terminal.
  (** Columns, rows, and the number of cells a character takes. *)
  Context (W Ht : nat) (cw : char -> nat).

  (** One row down: in the last row everything moves up instead, and the last
      row is blank. *)
  Definition linefeed (F : fterm) (k : nat) : fterm :=
    if S (f_row F) <? Ht then mkF (S (f_row F)) k (f_screen F) Ground
    else mkF (f_row F) k (fun i j => if S i <? Ht then f_screen F (S i) j else None) Ground.

  Definition fdraw (F : fterm) (c : char) : fterm :=
    if cw c =? 0 then F
    else
      let F := if W <? f_col F + cw c then linefeed F 0 else F in
      mkF (f_row F) (f_col F + cw c) (put (f_screen F) (f_row F) (f_col F) c) Ground.

  Definition fcontrol (F : fterm) (p : text) (f : char) : fterm :=
    let n := N.to_nat (N.max 1 (number p)) in
    let k := Nat.min (f_col F) (W - 1) in
    let at_ r c := mkF r c (f_screen F) Ground in
    if N.eqb f (ch "A") then at_ (f_row F - n) k
    else if N.eqb f (ch "B") then at_ (Nat.min (f_row F + n) (Ht - 1)) k
    else if N.eqb f (ch "C") then at_ (f_row F) (Nat.min (k + n) (W - 1))
    else if N.eqb f (ch "D") then at_ (f_row F) (k - n)
    else if N.eqb f (ch "H") then at_ 0 0
    else if N.eqb f (ch "J") then mkF (f_row F) (f_col F) (wipe (number p) (f_row F) k (f_screen F)) Ground
    else at_ (f_row F) (f_col F).

  Definition ffeed (F : fterm) (c : char) : fterm :=
    let into st := mkF (f_row F) (f_col F) (f_screen F) st in
    match f_st F with
    | Ground =>
      if N.eqb c c_esc then into Escape
      else if N.eqb c c_cr then mkF (f_row F) 0 (f_screen F) Ground
      else if N.eqb c c_nl then linefeed F (Nat.min (f_col F) (W - 1))
      else if N.eqb c 8 then mkF (f_row F) (Nat.min (f_col F) (W - 1) - 1) (f_screen F) Ground
      else if N.eqb c c_tab then mkF (f_row F) (Nat.min ((f_col F / 8 + 1) * 8) (W - 1)) (f_screen F) Ground
      else if ((c <? 32) || (c =? 127))%N then F
      else fdraw F c
    | Escape =>
      if N.eqb c (ch "[") then into (Control [])
      else if N.eqb c (ch "]") then into Osc
      else into Ground
    | Control p => if ((64 <=? c) && (c <=? 126))%N then fcontrol F p c else into (Control (p ++ [c]))
    | Osc => if N.eqb c c_bel then into Ground else F
    end.

  Definition ffeeds (F : fterm) (t : text) : fterm := fold_left ffeed t F.
  Definition fshows (F : fterm) (l : list tok) : fterm := ffeeds F (render_toks l).

  (** Prompt and text of a redraw fit on the screen, with the cell after them. *)
  Definition fits (d : redraw) : Prop :=
    forall prompt n pv t L e, search_prompt (e_uni (rd_env d)) (rd_to d) = Val (prompt, n) -> styled (narrow cw) prompt pv -> on_screen (rd_to d) t ->
      laid W (length pv) (0, 0) (pv ++ t) L e -> fst e < Ht.
End Terminal.
