(** What the screen of the terminal of ScreenSpec.v shows: the character in
    each cell, erasure included. *)
From Verif Require Import Base Utf8 BufferModel UtilModel HistoryModel EditorState EditorModel ScreenSpec.

(** Row and column; [None] is a blank cell. *)
Definition screen := nat -> nat -> option char.
Definition put (g : screen) (r k : nat) (c : char) : screen :=
  fun i j => if (i =? r) && (j =? k) then Some c else g i j.

(** ECMA-48 "erase in page" at row [r] and column [k]: from the cursor to the
    end, from the beginning to the cursor, or everything. *)
Definition wipe (n : N) (r k : nat) (g : screen) : screen :=
  fun i j =>
    let after := (r <? i) || ((i =? r) && (k <=? j)) in
    let before := (i <? r) || ((i =? r) && (j <=? k)) in
    if (n =? 0)%N then (if after then None else g i j)
    else if (n =? 1)%N then (if before then None else g i j)
    else if (n =? 2)%N then None
    else g i j.

Section Screen.
  Context (W : nat) (cw : char -> nat).
  (** The screen after one more character: [feed] has logged where it was
      drawn, and a sequence that ends in "J" erases. *)
  Definition paint (T : term) (g : screen) (c : char) : screen :=
    match t_st T with
    | Ground =>
      match skipn (length (t_log T)) (t_log (feed W cw T c)) with
      | (r, k, c') :: _ => put g r k c'
      | [] => g
      end
    | Control p => if N.eqb c (ch "J") then wipe (number p) (t_row T) (Nat.min (t_col T) (W - 1)) g else g
    | _ => g
    end.
  Fixpoint paints (T : term) (g : screen) (t : text) : screen :=
    match t with
    | [] => g
    | c :: t' => paints (feed W cw T c) (paint T g c) t'
    end.

  (** From row [r] on the screen [g] shows the characters in the cells [L] and
      nothing else; above it is as [g0]. *)
  Definition exactly (r : nat) (L : list (nat * nat * char)) (g0 g : screen) : Prop :=
    (forall i j, i < r -> g i j = g0 i j) /\
    (forall i j c, r <= i -> (g i j = Some c <-> In (i, j, c) L)).
End Screen.

(** Candidates in [cols] columns of [wd] cells, from row [r] on: candidate
    number [i] and those after it. *)
Fixpoint listed (cols wd r i : nat) (comps : list text) : list (nat * nat * char) :=
  match comps with
  | [] => []
  | com :: comps' =>
    map (fun j => (r + i / cols, (i mod cols) * wd + j, nth j com c_sp)) (seq 0 wd) ++ listed cols wd r (S i) comps'
  end.
(** The length of the longest candidate. *)
Definition longest (comps : list text) (m : nat) : Prop :=
  (forall c, In c comps -> length c <= m) /\ exists c, In c comps /\ length c = m.
