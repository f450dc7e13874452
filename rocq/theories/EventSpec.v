(** What completers that get events may do, and which events they get. *)
From Verif Require Import Base EditorState EditorModel KeymapModel EventModel.

(** The completer only looks at the editor. *)
Definition only_looks {D} (C : completer D) : Prop :=
  forall E ev d s d' s', c_event C E ev d s = Val (d', s') -> s' = s.

(** The completer never panics. *)
Definition no_panic {D} (C : completer D) : Prop :=
  (forall E ev d s, exists r, c_event C E ev d s = Val r) /\ (forall w d, exists r, c_completions C w d = Val r).

(** The same surroundings, except for the answers of the completer. *)
Definition same_but_answers (a b : env * key) : Prop :=
  snd a = snd b /\ e_uni (fst a) = e_uni (fst b) /\ e_size (fst a) = e_size (fst b) /\ e_wok (fst a) = e_wok (fst b) /\
  e_ttywidth (fst a) = e_ttywidth (fst b) /\ e_words (fst a) = e_words (fst b).

(** The outcome without the completer's state. *)
Definition forget {D K A} (o : out ((D * K) * ed) A) : out (K * ed) A :=
  match o with
  | ORet a ((_, x), s) => ORet a (x, s)
  | OErr e ((_, x), s) => OErr e (x, s)
  | OPanic p => OPanic p
  | OFuel => OFuel
  end.

(** Keys that all arrive. *)
Definition arrive (ks : list (env * key)) : list (env * option key) := map (fun '(E, k) => (E, Some k)) ks.

(** The events of one key.  Ctrl-h becomes Backspace in between. *)
Definition events_of (k : key) : list event :=
  match k with
  | KChar c => if N.eqb c c_tab then [BeforeKey k; BeforeComplete; AfterKey k] else [BeforeKey k; AfterKey k]
  | KCtrl c => if N.eqb c (ch "h") then [BeforeKey k; AfterKey KBackspace] else [BeforeKey k; AfterKey k]
  | _ => [BeforeKey k; AfterKey k]
  end.

(** The completer that also notes down its events. *)
Definition noting {D} (C : completer D) : completer (list event * D) :=
  mkCompleter
    (fun w '(l, d) => match c_completions C w d with Val (a, d') => Val (a, (l, d')) | Pan p => Pan p end)
    (fun E ev '(l, d) s => match c_event C E ev d s with Val (d', s') => Val ((l ++ [ev], d'), s') | Pan p => Pan p end).

(** The surroundings with given answers. *)
Definition answering (E : env) (l : list text) : env :=
  mkEnv (e_uni E) (e_size E) (e_wok E) (e_ttywidth E) (e_words E) (fun _ => l).

(** The first word ends before the cursor. *)
Definition past_first_word (ws : list (nat * nat)) (c : nat) : Prop :=
  match ws with
  | [] => False
  | (_, e) :: _ => e < c
  end.

(** A completer that counts the keys and completes a word by as many stars (for
    Examples). *)
Definition counting : completer nat :=
  mkCompleter (fun w n => Val ([w ++ repeat (ch "*") n], n))
              (fun _ ev n s => Val (match ev with BeforeKey _ => S n | _ => n end, s)).
