(** Keys with two names: C91. *)
From Verif Require Import Base BufferModel UtilModel HistoryModel EditorState EditorModel KeymapModel ViModel
  Tests Samples EditorSpec AliasProofs.
Local Open Scope monad_scope.

(** ** C91: two names of a key act alike

    In every state, and with the same output, errors and panics.  Ctrl-h is
    Backspace whatever the key map is. *)
Theorem C91_backspace : forall K (core : env -> key -> MK K unit) E x s,
  handle_key core E (KCtrl (ch "h")) (x, s) = handle_key core E KBackspace (x, s).
Proof. exact @ctrl_h. Qed.
Print Assumptions C91_backspace.

Theorem C91_moves : forall E x s,
  handle_key emacs_core E (KCtrl (ch "a")) (x, s) = handle_key emacs_core E KHome (x, s) /\
  handle_key emacs_core E (KCtrl (ch "e")) (x, s) = handle_key emacs_core E KEnd (x, s) /\
  handle_key emacs_core E (KCtrl (ch "b")) (x, s) = handle_key emacs_core E KLeft (x, s) /\
  handle_key emacs_core E (KCtrl (ch "p")) (x, s) = handle_key emacs_core E KUp (x, s) /\
  handle_key emacs_core E (KCtrl (ch "n")) (x, s) = handle_key emacs_core E KDown (x, s).
Proof. exact home_end. Qed.
Print Assumptions C91_moves.

Theorem C91_delete : forall E x s t n, line_is s t n -> t <> [] ->
  handle_key emacs_core E (KCtrl (ch "d")) (x, s) = handle_key emacs_core E KDelete (x, s).
Proof. exact ctrl_d. Qed.
Print Assumptions C91_delete.

(** Ctrl-f takes a suggestion anywhere on the line, Right only at its end. *)
Theorem C91_right : forall E x s t n, line_is s t n -> ed_noeol s = false -> n = length t \/ ed_sugg s = None ->
  handle_key emacs_core E (KCtrl (ch "f")) (x, s) = handle_key emacs_core E KRight (x, s).
Proof. exact ctrl_f. Qed.
Print Assumptions C91_right.

(** The two names in a row; where Ctrl-f and Right, and Ctrl-d and Delete, differ. *)
Example C91_case :
  let line ks := seen (emacs_run test_env (map str ["echo a"; "ls"]%string) (keys (str "ech") ++ ks)) in
  map line [[KCtrl (ch "a"); KCtrl (ch "d")]; [KHome; KDelete]; [KCtrl (ch "b"); KCtrl (ch "h")]; [KLeft; KBackspace];
            [KCtrl (ch "f")]; [KRight]; [KCtrl (ch "p")]; [KUp]] =
    map Some [(false, str "ch", 0); (false, str "ch", 0); (false, str "eh", 1); (false, str "eh", 1);
              (false, str "echo a", 6); (false, str "echo a", 6); (false, str "echo a", 6); (false, str "echo a", 6)] /\
  map line [[KHome; KCtrl (ch "f")]; [KHome; KRight]; [KCtrl (ch "u"); KDelete]; [KCtrl (ch "u"); KCtrl (ch "d")]] =
    [Some (false, str "echo a", 6); Some (false, str "ech", 1); Some (false, [], 0); None].
Proof. split; vm_compute; reflexivity. Qed.
