(** A terminal, fed with the characters the editor writes: where they are
    drawn and where the cursor ends up.  Follows ECMA-48 and xterm: a character
    in the last column leaves the cursor there until the next character
    (deferred wrap), and a count of 0 in a cursor movement means 1.  Rows are
    numbered from the top of the screen; there is no last row (nothing
    scrolls away). *)
From Verif Require Import Base Utf8 BufferModel UtilModel HistoryModel EditorState EditorModel.

Inductive pstate := Ground | Escape | Control (params : text) | Osc.

(** [t_col] is the number of columns left of the cursor; it equals the width
    of the terminal while a wrap is deferred.  [t_log]: every character drawn so
    far with its row and column. *)
Record term := mkTerm { t_row : nat; t_col : nat; t_log : list (nat * nat * char); t_st : pstate }.

(** The decimal number written in [p]; other characters are skipped. *)
Definition number (p : text) : N :=
  fold_left (fun n c => if ((48 <=? c) && (c <=? 57))%N then (10 * n + (c - 48))%N else n) p 0%N.

Section Terminal.
  (** The number of columns, and the number of cells a character takes. *)
  Context (W : nat) (cw : char -> nat).

  Definition draw (T : term) (c : char) : term :=
    if cw c =? 0 then T
    else
      let '(r, k) := if W <? t_col T + cw c then (S (t_row T), 0) else (t_row T, t_col T) in
      mkTerm r (k + cw c) (t_log T ++ [(r, k, c)]) Ground.

  (** The control sequence with parameters [p] and final character [f]. *)
  Definition control (T : term) (p : text) (f : char) : term :=
    let n := N.to_nat (N.max 1 (number p)) in
    let k := Nat.min (t_col T) (W - 1) in
    let at_ r c := mkTerm r c (t_log T) Ground in
    if N.eqb f (ch "A") then at_ (t_row T - n) k
    else if N.eqb f (ch "B") then at_ (t_row T + n) k
    else if N.eqb f (ch "C") then at_ (t_row T) (Nat.min (k + n) (W - 1))
    else if N.eqb f (ch "D") then at_ (t_row T) (k - n)
    else if N.eqb f (ch "H") then at_ 0 0
    else at_ (t_row T) (t_col T).

  Definition feed (T : term) (c : char) : term :=
    let into st := mkTerm (t_row T) (t_col T) (t_log T) st in
    match t_st T with
    | Ground =>
      if N.eqb c c_esc then into Escape
      else if N.eqb c c_cr then mkTerm (t_row T) 0 (t_log T) Ground
      else if N.eqb c c_nl then mkTerm (S (t_row T)) (Nat.min (t_col T) (W - 1)) (t_log T) Ground
      else if N.eqb c 8 then mkTerm (t_row T) (Nat.min (t_col T) (W - 1) - 1) (t_log T) Ground
      else if N.eqb c c_tab then mkTerm (t_row T) (Nat.min ((t_col T / 8 + 1) * 8) (W - 1)) (t_log T) Ground
      else if ((c <? 32) || (c =? 127))%N then T
      else draw T c
    | Escape =>
      if N.eqb c (ch "[") then into (Control [])
      else if N.eqb c (ch "]") then into Osc
      else into Ground
    | Control p => if ((64 <=? c) && (c <=? 126))%N then control T p c else into (Control (p ++ [c]))
    | Osc => if N.eqb c c_bel then into Ground else T
    end.

  Definition feeds (T : term) (t : text) : term := fold_left feed t T.
  (** The output of the editor. *)
  Definition shows (T : term) (l : list tok) : term := feeds T (render_toks l).
End Terminal.

(** Text with changes of style: [t] shows the characters [v] of the class [P];
    the rest are sequences ESC [ ... m. *)
Inductive styled (P : char -> Prop) : text -> text -> Prop :=
| sty_nil : styled P [] []
| sty_char : forall c t v, P c -> styled P t v -> styled P (c :: t) (c :: v)
| sty_seq : forall p t v, Forall (fun c => (48 <= c <= 63)%N) p -> styled P t v ->
    styled P (c_esc :: ch "[" :: p ++ ch "m" :: t) v.

(** The characters the terminal and the editor agree about: printable and one
    cell wide. *)
Definition narrow (cw : char -> nat) (c : char) : Prop := (32 <= c)%N /\ c <> c_del /\ cw c = 1.

(** The cell after a cell, in reading order. *)
Definition after_cell (W : nat) (p : nat * nat) : nat * nat :=
  if S (snd p) =? W then (S (fst p), 0) else (fst p, S (snd p)).

(** The layout of a text on a screen of [W] columns, beginning in cell [p]:
    [laid W ind p t L e] if the characters of [t] stand in the cells [L] and the
    next one would stand in [e].  The line after a newline is indented by
    [ind]; a line that fills its last row does not leave an empty row. *)
Inductive laid (W ind : nat) : nat * nat -> text -> list (nat * nat * char) -> nat * nat -> Prop :=
| laid_nil : forall p, laid W ind p [] [] p
| laid_char : forall p c t L e, c <> c_nl -> laid W ind (after_cell W p) t L e ->
    laid W ind p (c :: t) ((p, c) :: L) e
| laid_line : forall r k t L e,
    laid W ind (if k =? 0 then r else S r, ind) t L e -> laid W ind (r, k) (c_nl :: t) L e.

(** The text on the screen: the line, or the suggestion that extends it. *)
Definition on_screen (s : ed) (t : text) : Prop :=
  match ed_sugg s with
  | Some g => t = data g
  | None => exists b, cur_buf s = Val b /\ t = data b
  end.

(** What a redraw is assumed to draw, in the state [s] it leaves: the
    prompt shows [pv] and the line [t] is made of narrow characters, which are
    measured as such; a colouring closure only adds style; candidates shown
    above the prompt hold no escape characters. *)
Record drawable (W : nat) (cw : char -> nat) (U : unicode) (prompt pv t : text) (s : ed) : Prop := {
  dr_measure : forall x, Forall (narrow cw) x -> u_width U x = length x;
  dr_prompt : styled (narrow cw) prompt pv;
  dr_text : Forall (fun c => c = c_nl \/ narrow cw c) t;
  dr_closure : forall f x, ed_closure s = Some f -> Forall (narrow cw) x -> styled (narrow cw) (f x) x;
  dr_hint : forall comps i, ed_hint s = Some (comps, i) -> Forall (fun x => ~ In c_esc x) comps;
  dr_lines : In c_nl t -> 0 < length pv < W;
  dr_some : pv ++ t <> [];
  dr_rows : forall L e, laid W (length pv) (0, 0) (pv ++ t) L e -> (N.of_nat (fst e) < 65536)%N;
  dr_width : (N.of_nat W < 65536)%N
}.
