(** What Tab should do. *)
From Verif Require Import Base UtilSpec.
From Coq Require Import Sorting.Sorted.

(** The line [t] with words [ws] and the cursor before character [c]: [w] is
    the word the cursor is in or behind and [part] what of it precedes the
    cursor; both are empty if the cursor is not in or behind a word. *)
Definition at_word (ws : list (nat * nat)) (t : text) (c : nat) (a part w r : text) : Prop :=
  t = a ++ part ++ r /\ length (a ++ part) = c /\
  ((exists x, In (length a, length (a ++ w)) ws /\ part <> [] /\ w = part ++ x /\ is_prefix x r) \/
   ((forall s e, In (s, e) ws -> ~ (s < c <= e)) /\ part = [] /\ w = [])).

(** Alphabetical order by code points. *)
Inductive text_lt : text -> text -> Prop :=
| tlt_nil : forall y b, text_lt [] (y :: b)
| tlt_lt : forall x y a b, (x < y)%N -> text_lt (x :: a) (y :: b)
| tlt_eq : forall x a b, text_lt a b -> text_lt (x :: a) (x :: b).

(** [l'] lists the different elements of [l] in order. *)
Definition choices (l l' : list text) : Prop :=
  StronglySorted text_lt l' /\ forall x, In x l' <-> In x l.

(** [p] is the longest common prefix. *)
Definition longest_common (l : list text) (p : text) : Prop :=
  common_prefix p l /\ forall q, common_prefix q l -> length q <= length p.

(** The text is one word, for the default word division. *)
Definition single_word (c : text) : Prop := words_of c [(0, length c)].
