(** Where the line ends on the screen when Enter finishes it. *)
From Verif Require Import Base Utf8 BufferModel UtilModel HistoryModel EditorState EditorModel ScreenSpec.

(** The text [t] shown after the prompt [pv] takes no more rows than the line
    [l] would: it is the line, or ends in the row in which the next character
    of the line would stand, not at its beginning. *)
Definition same_rows (W : nat) (pv l t : text) : Prop :=
  t = l \/ exists L e L' e', laid W (length pv) (0, 0) (pv ++ l) L e /\ laid W (length pv) (0, 0) (pv ++ t) L' e' /\
    fst e = fst e' /\ snd e <> 0.
