(** Vi: the steps that may panic although the text is harmless. *)
From Verif Require Import Base Utf8 BufferModel UtilModel HistoryModel EditorState EditorModel KeymapModel ViModel
  SafeSpec.

(** Changing the case of a permitted character gives permitted text. *)
Definition ok_case (ascii flat srch : bool) (E : env) : Prop :=
  forall c, ok_char ascii flat srch c ->
    ok_text ascii flat srch (u_toupper (e_uni E) c) /\ ok_text ascii flat srch (u_tolower (e_uni E) c).

(** [d] or [c] was typed and waits for its movement. *)
Definition pending (v : vi) : Prop := exists start, In (MDelete start) (v_stack v).

(** A character search [m] that looks to the right. *)
Definition goes_right (m : cmove) (v : vi) (k : key) : Prop :=
  match m with
  | RightUntil | RightAt => exists c, k = KChar c
  | LeftUntil | LeftAt => False
  | RepeatMove => exists c, v_lcm v = Some (c, RightUntil) \/ v_lcm v = Some (c, RightAt)
  | ReverseRepeat => exists c, v_lcm v = Some (c, LeftUntil) \/ v_lcm v = Some (c, LeftAt)
  end.

(** The key [k] completes a movement that takes the character under the cursor
    into the deletion: [f], [t], [;] or [,] to the right, [ge] or [gE]. *)
Definition takes_cursor (v : vi) (k : key) : Prop :=
  match vmode_of v with
  | MMoveToChar m => goes_right m v k
  | MG => k = kch "e" \/ k = kch "E"
  | MDelete _ => (k = kch ";" /\ goes_right RepeatMove v k) \/ (k = kch "," /\ goes_right ReverseRepeat v k)
  | _ => False
  end.

(** One key of the key map in the state [v], [s] of the editor:
    - no such deletion is completed where there is no character under the cursor;
    - [~] on an empty line needs a working terminal. *)
Definition step_ok (E : env) (k : key) (v : vi) (s : ed) : Prop :=
  forall b, cur_buf s = Val b ->
    (pending v -> takes_cursor v k -> ed_cursor s < length (data b)) /\
    (vmode_of v = MNormal -> k = kch "~" -> data b = [] -> e_wok E = true /\ e_size E <> None).

(** The keys [ks], typed one after the other. *)
Fixpoint each_ok (C : key -> vi -> ed -> Prop) (E : env) (ks : list key) (v : vi) (s : ed) : Prop :=
  match ks with
  | [] => True
  | k :: ks' => C k v s /\
      forall v' s', vi_core E k (v, s) = ORet tt (v', s') -> each_ok C E ks' v' s'
  end.

(** What [.] repeats: the key that started the insertion, then the recorded
    keys.  The state they are typed in has the count of [.] or, without one,
    the last count. *)
Definition repeated (v : vi) : list key :=
  match v_lastins v with Some k => [k] | None => [] end ++ v_last v.
Definition repeating (v : vi) : vi :=
  let n := (if (v_count v =? 0)%N then (if (v_lcount v =? 0)%N then 1%N else v_lcount v) else v_count v) in
  vset_last [] (vset_lcount n (vset_count n v)).

(** [careful n]: the key is harmless, and so is every key repeated by [.], for
    at most [n] nested repetitions. *)
Fixpoint careful (n : nat) (E : env) (k : key) (v : vi) (s : ed) : Prop :=
  step_ok E k v s /\
  (vmode_of v = MNormal -> k = kch "." ->
     match n with
     | O => False
     | S n' => each_ok (careful n' E) E (repeated v) (repeating v) s
     end).

(** A key given to [handle_key]:
    - no Right on an empty line while normal mode shows a suggestion;
    - no completion and no search key while a deletion is pending;
    - neither a suggestion nor the line found is taken over during a search
      while a deletion is pending;
    - otherwise as above, except for Enter, which the key map does not see. *)
Definition key_careful (E : env) (k : key) (v : vi) (s : ed) : Prop :=
  (k = KRight -> showing_autosuggestion s = true -> ed_noeol s = true ->
     forall b, cur_buf s = Val b -> data b <> []) /\
  (pending v -> k <> KChar c_tab /\ k <> KCtrl (ch "r") /\ k <> KCtrl (ch "s")) /\
  (pending v -> is_search s = true -> k <> KRight /\ k <> KCtrl (ch "f") /\ k <> KChar c_nl) /\
  (k <> KChar c_nl -> exists n, careful n E k v s).

(** Every key of a session. *)
Fixpoint keys_careful (keys : list (env * key)) (v : vi) (s : ed) : Prop :=
  match keys with
  | [] => True
  | (E, k) :: keys' => key_careful E k v s /\
      forall v' s', vi_key E k (v, s) = ORet false (v', s') -> keys_careful keys' v' s'
  end.
