(** Specification of a shared history (C75): other processes change the history
    file while the line is edited. *)
From Verif Require Import Base BufferModel UtilModel HistoryModel HistorySpec EditorState EditorModel KeymapModel ViModel.

(** Key presses; at each of them the files may have become any [w].  [allowed]
    says which keys may be pressed in which state of the key map. *)
Inductive shared_run {K} (core : env -> key -> MK K unit) (allowed : K -> key -> Prop) : K * ed -> K * ed -> Prop :=
| shared_nil : forall x, shared_run core allowed x x
| shared_key : forall x y z w E k d,
    shared_run core allowed x y -> allowed (fst y) k ->
    handle_key core E k (fst y, set_fs w (snd y)) = ORet d z -> shared_run core allowed x z.
Definition any_key {K} (_ : K) (_ : key) : Prop := True.

(** What is remembered of the lines [r] of a file: the newest ones, and of equal
    ones only the last if duplicates are not loaded. *)
Definition fetched (h : history) (r l : list text) : Prop :=
  exists kept, newest (h_maxfile h) r kept /\
    (if h_loaddup h then l = kept else last_occ kept l).

(** The history is shared and its file holds the lines [r] in [w]; its size is
    not the one seen last. *)
Definition shared_file (w : fs) (h : history) (r : list text) : Prop :=
  h_share h = true /\ exists p bs, h_file h = Some p /\ has_content w p bs /\ reads bs r /\ length bs <> h_fsize h.

(** The keys that may let the next Up read the file again. *)
Definition emacs_steady (_ : emacs) (k : key) : Prop := k <> KDown /\ k <> KCtrl (ch "n") /\ k <> KChar c_nl.
Definition vi_steady (v : vi) (k : key) : Prop :=
  k <> KChar c_nl /\
  match vmode_of v with
  | MInsert => k <> KDown
  | MNormal => k <> KDown /\ k <> kch "j" /\ k <> kch "."
  | _ => True
  end.

(** The keys that look at the history. *)
Definition emacs_looks (k : key) : Prop := In k [KUp; KCtrl (ch "p"); KCtrl (ch "r"); KCtrl (ch "s")].
Definition vi_looks (v : vi) (k : key) : Prop :=
  In k [KCtrl (ch "r"); KCtrl (ch "s")] \/
  (v_stack v = [] /\ In k [KUp; kch "k"]) \/ (v_stack v = [MInsert] /\ k = KUp).
