(** Specifications for the helpers of src/util.rs, [get_buffer_words],
    [CursorPosition] and [BasicCompleter]. *)
From Verif Require Import Base.

(** [r] is [l] without exactly the elements that do not satisfy [P]. *)
Inductive selects {A} (P : A -> Prop) : list A -> list A -> Prop :=
| sel_nil : selects P [] []
| sel_keep : forall x l r, P x -> selects P l r -> selects P (x :: l) (x :: r)
| sel_drop : forall x l r, ~ P x -> selects P l r -> selects P (x :: l) r.

Definition is_prefix (p s : text) : Prop := exists r, s = p ++ r.

(** [p] is a prefix of every candidate. *)
Definition common_prefix (p : text) (l : list text) : Prop := forall s, In s l -> is_prefix p s.

(** * Words *)

(** One word [s, e) of the text [t]. *)
Definition word_ok (t : text) (w : nat * nat) : Prop :=
  let '(s, e) := w in
  s < e /\ e <= length t /\
  (exists c, nth_error t s = Some c /\ c <> c_sp /\ c <> c_bs) /\
  (forall i, s < i < e -> nth_error t i = Some c_sp -> nth_error t (i - 1) = Some c_bs) /\
  (e = length t \/ (nth_error t e = Some c_sp /\ nth_error t (e - 1) <> Some c_bs)).

(** Words in increasing order, at least one character apart. *)
Inductive apart : list (nat * nat) -> Prop :=
| apart_nil : apart []
| apart_one : forall s e, s < e -> apart [(s, e)]
| apart_cons : forall s e s' e' l, s < e -> e < s' -> apart ((s', e') :: l) ->
    apart ((s, e) :: (s', e') :: l).

Definition covered (ws : list (nat * nat)) (i : nat) : Prop :=
  exists s e, In (s, e) ws /\ s <= i < e.

Definition words_of (t : text) (ws : list (nat * nat)) : Prop :=
  Forall (word_ok t) ws /\ apart ws /\
  (forall i c, nth_error t i = Some c -> ~ covered ws i -> c = c_sp \/ c = c_bs).

(** Words in increasing order, possibly touching. *)
Inductive increasing : list (nat * nat) -> Prop :=
| inc_nil : increasing []
| inc_one : forall s e, s < e -> increasing [(s, e)]
| inc_cons : forall s e s' e' l, s < e -> e <= s' -> increasing ((s', e') :: l) ->
    increasing ((s, e) :: (s', e') :: l).

(** Where a cursor lies among words. *)
Definition at_start (ws : list (nat * nat)) (c i : nat) : Prop := exists e, nth_error ws i = Some (c, e).
Definition at_end (ws : list (nat * nat)) (c i : nat) : Prop := exists s, nth_error ws i = Some (s, c).
Definition inside (ws : list (nat * nat)) (c i : nat) : Prop :=
  exists s e, nth_error ws i = Some (s, e) /\ s < c < e.
(** [i] is the last word ending before [c] / the first word starting after it. *)
Definition nearest_left (ws : list (nat * nat)) (c : nat) (o : option nat) : Prop :=
  match o with
  | None => forall i s e, nth_error ws i = Some (s, e) -> c < e
  | Some i => (exists s e, nth_error ws i = Some (s, e) /\ e < c) /\
              (forall j s e, i < j -> nth_error ws j = Some (s, e) -> c < e)
  end.
Definition nearest_right (ws : list (nat * nat)) (c : nat) (o : option nat) : Prop :=
  match o with
  | None => forall i s e, nth_error ws i = Some (s, e) -> s < c
  | Some i => (exists s e, nth_error ws i = Some (s, e) /\ c < s) /\
              (forall j s e, j < i -> nth_error ws j = Some (s, e) -> s < c)
  end.

(** The class of a cursor. When two words touch, the end of the left one
    counts; for words that are [apart] an end is never also a start. *)
Inductive class :=
| CInside (i : nat) | CStart (i : nat) | CEnd (i : nat) | CBetween (l r : option nat).
Definition class_of (ws : list (nat * nat)) (c : nat) (k : class) : Prop :=
  match k with
  | CInside i => inside ws c i
  | CEnd i => at_end ws c i
  | CStart i => at_start ws c i /\ (forall j, ~ at_end ws c j)
  | CBetween l r => nearest_left ws c l /\ nearest_right ws c r /\
      (forall i, ~ at_start ws c i /\ ~ at_end ws c i /\ ~ inside ws c i)
  end.

(** * Escape sequences *)

Definition letter (c : char) : Prop := (65 <= c <= 90 \/ 97 <= c <= 122)%N.

(** Complete sequences: CSI (ESC [ ... letter), OSC (ESC ] ... BEL) and the
    two-character ones. *)
Inductive esc_seq : text -> Prop :=
| seq_csi : forall p f, (forall c, In c p -> ~ letter c) -> letter f ->
    esc_seq (c_esc :: ch "[" :: p ++ [f])
| seq_osc : forall p, ~ In c_bel p -> esc_seq (c_esc :: ch "]" :: p ++ [c_bel])
| seq_two : forall c, c <> ch "[" -> c <> ch "]" -> esc_seq [c_esc; c].
(** A sequence cut off by the end of the text. *)
Inductive esc_cut : text -> Prop :=
| cut_esc : esc_cut [c_esc]
| cut_csi : forall p, (forall c, In c p -> ~ letter c) -> esc_cut (c_esc :: ch "[" :: p)
| cut_osc : forall p, ~ In c_bel p -> esc_cut (c_esc :: ch "]" :: p).

(** [o] is [t] without its escape sequences. *)
Inductive stripped : text -> text -> Prop :=
| st_nil : stripped [] []
| st_char : forall c t o, c <> c_esc -> stripped t o -> stripped (c :: t) (c :: o)
| st_seq : forall e t o, esc_seq e -> stripped t o -> stripped (e ++ t) o
| st_cut : forall e, esc_cut e -> stripped e [].

(** [l] is what follows the last newline of [t]. *)
Definition last_line (t l : text) : Prop :=
  ~ In c_nl l /\ (t = l \/ exists a, t = a ++ c_nl :: l).
