(** Concrete sessions, used by the Examples beside the theorems. *)
From Verif Require Import Base BufferModel UtilModel HistoryModel EditorState EditorModel KeymapModel
  ViModel Tests.
Local Open Scope monad_scope.

(** A history holding [l], oldest first. *)
Definition hist_of (l : list text) : history :=
  fold_left (fun h t => fst (hist_push no_fs h (buf_of t))) l hist_new.

Definition sample_new (E : env) (h : list text) : out ed unit :=
  editor_new E (mkPrompt (str "$ ") None) None buf_new (hist_of h) no_fs [] [].

Definition sample_run {K} (core : env -> key -> MK K unit) (k0 : K) (init : env -> MK K unit)
           (E : env) (h : list text) (keys : list key) : out (K * ed) bool :=
  match sample_new E h with
  | ORet _ s => (init E ;;; run_keys core (map (pair E) keys)) (k0, s)
  | OErr e s => OErr e (k0, s)
  | OPanic p => OPanic p
  | OFuel => OFuel
  end.
Definition emacs_run := sample_run emacs_core emacs_new (fun _ => ret tt).
Definition vi_run := sample_run vi_core vi_new vi_init.

Definition keys (t : text) : list key := map KChar t.

(** Whether the line was finished, the line and the cursor. *)
Definition seen {K} (o : out (K * ed) bool) : option (bool * text * nat) :=
  match o with
  | ORet d (_, s) => match cur_buf s with Val b => Some (d, data b, ed_cursor s) | _ => None end
  | _ => None
  end.

(** The editor state at the end of a session ([s0] if it failed). *)
Definition final {K} (o : out (K * ed) bool) (s0 : ed) : ed :=
  match o with ORet _ (_, s) => s | _ => s0 end.
Definition blank_ed : ed :=
  mkEd (mkPrompt [] None) None 0 buf_new buf_new false None 1 None true false false false false [] None
       None false hist_new no_fs [] [].
Definition emacs_ed (h : list text) (l : list key) : ed := final (emacs_run test_env h l) blank_ed.
Definition vi_ed (h : list text) (l : list key) : ed := final (vi_run test_env h l) blank_ed.
