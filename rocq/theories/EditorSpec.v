(** Specifications for the editor: what is on the line and where the cursor is. *)
From Verif Require Import Base BufferModel BufferSpec HistoryModel HistorySpec EditorState EditorModel.

(** The line shown has text [t] and the cursor is at [c]. *)
Definition line_is (s : ed) (t : text) (c : nat) : Prop :=
  exists b, cur_buf s = Val b /\ data b = t /\ ed_cursor s = c.

(** The character before position [c] of [t] is a backslash. *)
Definition after_backslash (t : text) (c : nat) : Prop :=
  exists a r, t = a ++ c_bs :: r /\ c = S (length a).

(** [g] is the newest entry of [l] that strictly extends [t]. *)
Definition newest_extending (l : list text) (t g : text) : Prop :=
  exists old new, l = old ++ g :: new /\ extends t g /\ (forall x, In x new -> ~ extends t x).

(** [g] is the suggestion to make for the new line [t] when the history is [h]. *)
Definition suggests (h : list text) (t : text) (g : option buffer) : Prop :=
  match g with
  | Some g => t <> [] /\ newest_extending h t (data g)
  | None => t = [] \/ forall x, In x h -> ~ extends t x
  end.

(** [i] is an entry containing [t]; entries are numbered from the oldest. *)
Definition match_at (l : list text) (t : text) (i : nat) : Prop :=
  exists x, nth_error l i = Some x /\ occurs t x.

(** Splitting a list of tokens at the line breaks. *)
Fixpoint rows (l : list tok) : list (list tok) :=
  match l with
  | [] => [[]]
  | TCRLF :: l' => [] :: rows l'
  | t :: l' => match rows l' with [] => [[t]] | r :: rs => (t :: r) :: rs end
  end.
(** The texts written, without colors. *)
Definition tok_texts (l : list tok) : list text :=
  flat_map (fun t => match t with TStr x => [x] | _ => [] end) l.

(** A filled-up candidate. *)
Definition padded (com shown : text) (w : nat) : Prop :=
  exists n, shown = com ++ repeat c_sp n /\ (w <= length shown) /\ (n = 0 \/ length shown = w).

(** The next match in a direction, cyclically. *)
Definition next_match (ms : nat -> Prop) (fwd : bool) (i j : nat) : Prop :=
  ms j /\
  if fwd
  then (i < j /\ forall k, ms k -> i < k -> j <= k) \/
       ((forall k, ms k -> k <= i) /\ forall k, ms k -> j <= k)
  else (j < i /\ forall k, ms k -> k < i -> k <= j) \/
       ((forall k, ms k -> i <= k) /\ forall k, ms k -> k <= j).

(** The entries containing the (non-empty) term. *)
Definition matches (s : ed) (i : nat) : Prop :=
  data (ed_new s) <> [] /\ match_at (texts (ed_history s)) (data (ed_new s)) i.

(** The entry selected by a search, if any. *)
Definition selected (s : ed) (o : option nat) : Prop :=
  search_history_loc s = o /\
  match o with
  | Some i => exists g, ed_sugg s = Some g /\ nth_error (texts (ed_history s)) i = Some (data g) /\ matches s i
  | None => ed_sugg s = None /\ forall i, ~ matches s i
  end.

(** [chain E fwd s l]: [l] are the states after 1, 2, ... further steps. *)
Inductive chain (E : env) (fwd : bool) : ed -> list ed -> Prop :=
| chain_nil : forall s, chain E fwd s []
| chain_cons : forall s s' u l, search E fwd s = ORet u s' -> chain E fwd s' l -> chain E fwd s (s' :: l).
