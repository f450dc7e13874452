(** What the properties of buffers are stated with: edits as splices, sequences
    of public operations, groups of edits.  Nothing here looks inside the undo
    machinery of the model. *)
From Verif Require Import Base Utf8 BufferModel.

(** The three editing calls of the public interface. *)
Inductive edit :=
| EInsert (start : nat) (t : text)
| ERemove (start end_ : nat)
| ETruncate (n : nat).

Definition run_edit (b : buffer) (e : edit) : res buffer :=
  match e with
  | EInsert s t => buf_insert b s t
  | ERemove s e => rbind (buf_remove b s e) (fun r => Val (snd r))
  | ETruncate n => buf_truncate b n
  end.

(** The range of the edit lies inside a text of length [n]. *)
Definition edit_in_range (n : nat) (e : edit) : Prop :=
  match e with
  | EInsert s _ => s <= n
  | ERemove s e => s <= e /\ e <= n
  | ETruncate k => k <= n
  end.

(** What an edit does to a text, as a splice. *)
Inductive spliced : edit -> text -> text -> Prop :=
| spliced_insert : forall a t c, spliced (EInsert (length a) t) (a ++ c) (a ++ t ++ c)
| spliced_remove : forall a m c,
    spliced (ERemove (length a) (length a + length m)) (a ++ m ++ c) (a ++ c)
| spliced_truncate : forall a c, spliced (ETruncate (length a)) (a ++ c) a.

(** Edits and closed groups of edits, nested to any depth. *)
Inductive item :=
| IEdit (e : edit)
| IGroup (l : list item).

Fixpoint run_item (b : buffer) (i : item) : res buffer :=
  match i with
  | IEdit e => run_edit b e
  | IGroup l =>
    rbind ((fix go (b : buffer) (l : list item) : res buffer :=
              match l with
              | [] => Val b
              | i :: l' => rbind (run_item b i) (fun b' => go b' l')
              end) (start_undo_group b) l)
          (fun b' => Val (end_undo_group b'))
  end.
Fixpoint run_items (b : buffer) (l : list item) : res buffer :=
  match l with
  | [] => Val b
  | i :: l' => rbind (run_item b i) (fun b' => run_items b' l')
  end.

(** Every group, at every depth, has at least one element (hence contains an
    edit, at some depth). *)
Fixpoint no_empty_group (i : item) : Prop :=
  match i with
  | IEdit _ => True
  | IGroup l =>
    l <> [] /\ (fix go l := match l with [] => True | i :: l' => no_empty_group i /\ go l' end) l
  end.

(** Every edit performed by the item stays inside the text it is applied to
    (for a removal or a non-empty insertion this is implied by not panicking;
    an empty insertion beyond the end does not panic). *)
Fixpoint item_in_range (b : buffer) (i : item) : Prop :=
  match i with
  | IEdit e => edit_in_range (length (data b)) e
  | IGroup l =>
    (fix go (b : buffer) (l : list item) : Prop :=
       match l with
       | [] => True
       | i :: l' => item_in_range b i /\ (forall b', run_item b i = Val b' -> go b' l')
       end) (start_undo_group b) l
  end.

(** Any public operation on a buffer. *)
Inductive bop :=
| OEdit (e : edit)
| OStart | OEnd
| OUndo | ORedo | ORevert | OClear
| OCopy (t : text)           (* copy_buffer *)
| OExtend (t : text).        (* insert_from_buffer *)

Definition run_op (b : buffer) (o : bop) : res buffer :=
  match o with
  | OEdit e => run_edit b e
  | OStart => Val (start_undo_group b)
  | OEnd => Val (end_undo_group b)
  | OUndo => rbind (buf_undo b) (fun r => Val (snd r))
  | ORedo => rbind (buf_redo b) (fun r => Val (snd r))
  | ORevert => rbind (buf_revert b) (fun r => Val (snd r))
  | OClear => Val (clear_actions b)
  | OCopy t => copy_buffer b (buf_of t)
  | OExtend t => insert_from_buffer b (buf_of t)
  end.

(** Reachability: [reach orig b] says that [b] comes from a buffer created with
    some text, by public operations with ranges inside the text; [orig] is the
    text at creation or at the last [clear_actions]. *)
Definition op_in_range (b : buffer) (o : bop) : Prop :=
  match o with
  | OEdit e => edit_in_range (length (data b)) e
  | OExtend t => length (data b) <= length t
  | _ => True
  end.
Inductive reach : text -> buffer -> Prop :=
| reach_new : forall t, reach t (buf_of t)
| reach_clear : forall t b, reach t b -> reach (data b) (clear_actions b)
| reach_op : forall t b o b', reach t b -> o <> OClear -> op_in_range b o ->
    run_op b o = Val b' -> reach t b'.

(** Repeating [undo] exactly [n] times. *)
Fixpoint undo_n (n : nat) (b : buffer) : res buffer :=
  match n with O => Val b | S n' => rbind (buf_undo b) (fun r => undo_n n' (snd r)) end.

(** Repeating [redo] until it answers false. *)
Inductive redo_to_end : buffer -> buffer -> Prop :=
| redo_stop : forall b b', buf_redo b = Val (false, b') -> redo_to_end b b'
| redo_more : forall b b1 b', buf_redo b = Val (true, b1) -> redo_to_end b1 b' ->
    redo_to_end b b'.

(** [t] occurs in [s] as a contiguous block. *)
Definition occurs (t s : text) : Prop := exists a b, s = a ++ t ++ b.
(** [s] is [t] followed by at least one more character. *)
Definition extends (t s : text) : Prop := exists x r, s = t ++ x :: r.

(** [w] is a maximal run without spaces, at offset [|a|] of [a ++ w ++ c]. *)
Definition no_space (t : text) : Prop := ~ In c_sp t.
Definition ends_space (t : text) : Prop := t = [] \/ exists t', t = t' ++ [c_sp].
Definition starts_space (t : text) : Prop := t = [] \/ exists t', t = c_sp :: t'.
(** [w] is the last maximal run of non-space characters of [s]. *)
Definition is_last_word (w s : text) : Prop :=
  w <> [] /\ no_space w /\
  exists a n, s = a ++ w ++ repeat c_sp n /\ ends_space a.

(** The pieces of a text between newlines. *)
Fixpoint glue (sep : char) (l : list text) : text :=
  match l with
  | [] => []
  | [x] => x
  | x :: l' => x ++ sep :: glue sep l'
  end.

(** Buffers used with properly closed, non-empty groups only. *)
Inductive grouped : buffer -> Prop :=
| gr_new : forall t, grouped (buf_of t)
| gr_item : forall b i b', grouped b -> no_empty_group i -> item_in_range b i ->
    run_item b i = Val b' -> grouped b'
| gr_undo : forall b r b', grouped b -> buf_undo b = Val (r, b') -> grouped b'
| gr_redo : forall b r b', grouped b -> buf_redo b = Val (r, b') -> grouped b'
| gr_clear : forall b, grouped b -> grouped (clear_actions b).

(** A sequence of public operations, without any condition on the ranges. *)
Fixpoint run_ops (b : buffer) (l : list bop) : res buffer :=
  match l with [] => Val b | o :: l' => rbind (run_op b o) (fun b' => run_ops b' l') end.
