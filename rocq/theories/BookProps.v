(** Walking through the history and editing there, under the Emacs keys: C85 and C86. *)
From Verif Require Import Base BufferModel UtilModel BufferSpec UtilSpec HistoryModel HistorySpec EditorState EditorModel
  KeymapModel Tests Samples EditorSpec EmacsSpec BookSpec BookProofs.
Local Open Scope monad_scope.

(** ** C85: walking through the history and editing behave like a pure editor with a book of lines

    The keys are all but Tab, Enter, Ctrl-c, Ctrl-r, Ctrl-s, Alt-<, Alt-> and
    Alt-. ; the history is not shared. *)
Theorem C85 : forall words E p f ib h w cb ttys s l d x s',
  (forall t, increasing (words t)) -> h_share h = false -> actions ib = [] ->
  editor_new E p f ib h w cb ttys = ORet tt s ->
  Forall (fun y => booked (snd y) /\ e_words (fst y) = words) l ->
  run_keys emacs_core l (emacs_new, s) = ORet d (x, s') ->
  d = false /\
  let b := fold_left (fun b k => b_key words (texts h) k b) (map snd l) (mkBook (mkZ (data ib) [] []) [[]] None) in
  line_is s' (zline (line b)) (length (before (line b))).
Proof. exact emacs_book. Qed.
Print Assumptions C85.

(** A line is typed, an entry recalled and edited, another one shown, the first
    one shown again, and the typed line is there in the end with its past. *)
Example C85_case :
  let ks := keys (str "ls") ++ [KUp; KChar (ch "x"); KHome; KCtrl (ch "p"); KCtrl (ch "w"); KDown; KRight; KDelete;
    KCtrl (ch "l"); KUp; KDown; KCtrl (ch "x")] in
  let hs := [str "ls -l"; str "cd"; str "false"; str "ls"] in
  exists s x s', sample_new test_env hs = ORet tt s /\ h_share (hist_of hs) = false /\ texts (hist_of hs) = hs /\
    Forall (fun y => booked (snd y) /\ e_words (fst y) = get_buffer_words) (map (pair test_env) ks) /\
    run_keys emacs_core (map (pair test_env) ks) (emacs_new, s) = ORet false (x, s') /\
    line_is s' (str "l") 1 /\
    map (fun n => zline (line (fold_left (fun b k => b_key get_buffer_words hs k b) (firstn n ks) (mkBook (mkZ [] [] []) [[]] None))))
        [2; 3; 4; 6; 7; 8; 9; 12; 13; 14] =
      map str ["ls"; "ls -l"; "ls -lx"; "false"; ""; "ls -l"; "ls -l"; "ls -l"; "ls"; "l"]%string.
Proof.
  intros ks hs. destruct (sample_new test_env hs) as [[] s| | |] eqn:E0; try (vm_compute in E0; discriminate).
  destruct (run_keys emacs_core (map (pair test_env) ks) (emacs_new, s)) as [[|] [x s']| | |] eqn:E1;
    try (vm_compute in E0; injection E0 as <-; vm_compute in E1; discriminate).
  exists s, x, s'. split; [reflexivity|]. split; [reflexivity|]. split; [reflexivity|]. split; [|split; [exact E1|]].
  - subst ks. repeat (constructor; [split; [cbn; try (split; discriminate); try exact I;
      (intro H; repeat (destruct H as [H|H]; [discriminate H|]); exact H)|reflexivity]|]).
    constructor.
  - vm_compute in E0. injection E0 as <-. vm_compute in E1. injection E1 as <- <-.
    split; [eexists; vm_compute; repeat split|]. vm_compute. reflexivity.
Qed.

(** ** C86: undo takes back what was typed, also on a recalled line, and stops at the line as it was recalled

    The first half: on any line, new or recalled, as many undos as characters
    typed give the line back.  The second half is false. *)
Theorem C86_partial : forall words E p f ib h w cb ttys s l t d0 x0 s0 c d x s' ks,
  (forall t, increasing (words t)) -> h_share h = false -> actions ib = [] ->
  editor_new E p f ib h w cb ttys = ORet tt s ->
  Forall (fun y => booked (snd y) /\ e_words (fst y) = words) l ->
  run_keys emacs_core l (emacs_new, s) = ORet d0 (x0, s0) -> line_is s0 t c ->
  Forall (fun y => e_words (fst y) = words) ks ->
  (exists typed, ~ In c_tab typed /\ ~ In c_nl typed /\ typed <> [] /\
    map snd ks = map KChar typed ++ repeat (KCtrl (ch "x")) (length typed)) ->
  run_keys emacs_core ks (x0, s0) = ORet d (x, s') ->
  d = false /\ line_is s' t (length t).
Proof. exact book_undo. Qed.
Print Assumptions C86_partial.

Example C86_case :
  let ks := keys (str "x y") ++ repeat (KCtrl (ch "x")) 3 in
  exists x0 s0 x s', emacs_run test_env [str "ls -l"; str "cd"] [KChar (ch "l"); KUp; KLeft; KBackspace] = ORet false (x0, s0) /\
    ed_loc s0 = Some 0 /\ line_is s0 (str "ls l") 3 /\
    run_keys emacs_core (map (pair test_env) ks) (x0, s0) = ORet false (x, s') /\ line_is s' (str "ls l") 4.
Proof.
  intro ks. do 4 eexists. split; [vm_compute; reflexivity|]. split; [vm_compute; reflexivity|].
  split; [eexists; vm_compute; repeat split|]. split; [vm_compute; reflexivity|]. eexists. vm_compute. repeat split.
Qed.

(** One undo more empties the recalled line. *)
Theorem C86_empty_refuted : exists hs ks x s x' s',
  emacs_run test_env hs [KUp] = ORet false (x, s) /\ ks = [KChar (ch "x"); KCtrl (ch "x"); KCtrl (ch "x")] /\
  line_is s (str "ls") 2 /\ ed_loc s = Some 0 /\
  run_keys emacs_core (map (pair test_env) ks) (x, s) = ORet false (x', s') /\ line_is s' [] 0.
Proof.
  exists [str "ls"], [KChar (ch "x"); KCtrl (ch "x"); KCtrl (ch "x")]. do 4 eexists.
  split; [vm_compute; reflexivity|]. split; [reflexivity|]. split; [eexists; vm_compute; repeat split|].
  split; [reflexivity|]. split; [vm_compute; reflexivity|]. eexists. vm_compute. repeat split.
Qed.
Print Assumptions C86_empty_refuted.

(** And one more brings up an edited copy of another entry. *)
Theorem C86_other_refuted : exists x s x1 s1 x' s',
  emacs_run test_env [str "two"; str "one"] [KUp; KChar (ch "x"); KUp] = ORet false (x, s) /\
  line_is s (str "two") 3 /\ ed_loc s = Some 0 /\
  run_keys emacs_core (map (pair test_env) [KChar (ch "y"); KCtrl (ch "x")]) (x, s) = ORet false (x1, s1) /\
  line_is s1 (str "two") 3 /\
  run_keys emacs_core (map (pair test_env) [KCtrl (ch "x"); KCtrl (ch "x")]) (x1, s1) = ORet false (x', s') /\
  ed_loc s' = Some 0 /\ line_is s' (str "onex") 4.
Proof.
  do 6 eexists. split; [vm_compute; reflexivity|]. split; [eexists; vm_compute; repeat split|]. split; [reflexivity|].
  split; [vm_compute; reflexivity|]. split; [eexists; vm_compute; repeat split|]. split; [vm_compute; reflexivity|].
  split; [reflexivity|]. eexists. vm_compute. repeat split.
Qed.
Print Assumptions C86_other_refuted.
