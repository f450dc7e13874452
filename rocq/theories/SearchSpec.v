(** Specification of how a search follows its term (C74). *)
From Verif Require Import Base BufferModel UtilModel HistoryModel HistorySpec EditorState EditorModel KeymapModel EditorSpec.

(** Where a search that stood at entry [o] goes when [M] becomes the set of
    matching entries.  A reverse search stays, or goes to the nearest older
    match, or if there is none to the oldest; a forward search stays, or goes to
    the nearest newer match, or if there is none to the oldest. *)
Definition follows (M : nat -> Prop) (fwd : bool) (o o' : option nat) : Prop :=
  match o' with
  | None => forall j, ~ M j
  | Some j => M j /\
    match o with
    | None => forall k, M k -> if fwd then j <= k else k <= j
    | Some i =>
      if fwd
      then (i <= j /\ forall k, M k -> i <= k -> j <= k) \/ (forall k, M k -> k < i /\ j <= k)
      else (j <= i /\ forall k, M k -> k <= i -> k <= j) \/ (forall k, M k -> i < k /\ j <= k)
    end
  end.

(** A key that changes the text before the cursor from [a] to [a']. *)
Inductive edits : key -> text -> text -> Prop :=
| edits_char : forall c a, c <> c_tab -> c <> c_nl -> edits (KChar c) a (a ++ [c])
| edits_back : forall c a, edits KBackspace (a ++ [c]) a.

(** Ctrl-s and Ctrl-r. *)
Definition search_key (fwd : bool) : key := KCtrl (ch (if fwd then "s" else "r")).
