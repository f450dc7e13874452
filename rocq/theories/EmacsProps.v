(** Editing and history arguments under the Emacs keys: C22 and C32. *)
From Verif Require Import Base BufferModel UtilModel BufferSpec UtilSpec UtilProofs HistoryModel HistorySpec EditorState EditorModel
  KeymapModel Tests Samples EditorSpec EmacsSpec EmacsProofs LastArgProofs.
Local Open Scope monad_scope.

(** ** C22: Emacs editing behaves like a two-list line editor

    Any word division with increasing words will do. *)
Theorem C22 : forall words E p f ib h w cb ttys s l d x s',
  (forall t, increasing (words t)) -> actions ib = [] ->
  editor_new E p f ib h w cb ttys = ORet tt s ->
  Forall (fun y => edits (snd y) /\ e_words (fst y) = words) l ->
  run_keys emacs_core l (emacs_new, s) = ORet d (x, s') ->
  d = false /\
  let z := fold_left (fun z k => z_key words (texts h) k z) (map snd l) (mkZ (data ib) [] []) in
  line_is s' (zline z) (length (before z)).
Proof. exact emacs_is_pure. Qed.
Print Assumptions C22.

(** The default words of a context are such a division. *)
Theorem C22_default_words : forall t, increasing (get_buffer_words t).
Proof. exact default_increasing. Qed.
Print Assumptions C22_default_words.

(** Typing, moving, killing a word, taking back, accepting a suggestion. *)
Example C22_case :
  let ks := keys (str "ab cd ef") ++ [KCtrl (ch "w"); KAlt (ch "b"); KChar (ch "x"); KHome; KDelete; KCtrl (ch "x");
    KCtrl (ch "x"); KCtrl (ch "k"); KLeft; KCtrl (ch "u"); KDelete] ++ keys (str "l") ++ [KEnd; KRight; KBackspace] in
  exists s x s', sample_new test_env [str "ls -l"; str "cd"] = ORet tt s /\
    Forall (fun y => edits (snd y) /\ e_words (fst y) = get_buffer_words) (map (pair test_env) ks) /\
    run_keys emacs_core (map (pair test_env) ks) (emacs_new, s) = ORet false (x, s') /\
    line_is s' (str "ls -") 4 /\
    firstn 4 (earlier (fold_left (fun z k => z_key get_buffer_words [str "ls -l"; str "cd"] k z) ks (mkZ [] [] []))) =
      [str "ls -l"; str "l"; []; str " "].
Proof.
  intro ks. destruct (sample_new test_env [str "ls -l"; str "cd"]) as [[] s| | |] eqn:E0; try (vm_compute in E0; discriminate).
  destruct (run_keys emacs_core (map (pair test_env) ks) (emacs_new, s)) as [[|] [x s']| | |] eqn:E1;
    try (vm_compute in E0; injection E0 as <-; vm_compute in E1; discriminate).
  exists s, x, s'. split; [reflexivity|]. split; [|split; [exact E1|]].
  - subst ks. repeat (constructor; [split; [cbn; try (split; discriminate); try exact I;
      (intro H; repeat (destruct H as [H|H]; [discriminate H|]); exact H)|reflexivity]|]).
    constructor.
  - vm_compute in E0. injection E0 as <-. vm_compute in E1. injection E1 as <- <-.
    split; [eexists; vm_compute; repeat split|]. vm_compute. reflexivity.
Qed.

(** ** C32: Alt-. walks back through the last arguments of history *)
(** One press, on any line and with the cursor anywhere. *)
Theorem C32_once : forall E s a r e w d x s',
  line_is s (a ++ r) (length a) -> is_search s = false -> ed_noeol s = false ->
  (forall i, ed_loc s = Some i -> i < length (texts (ed_history s))) ->
  hd_error (backwards (texts (ed_history s)) (ed_loc s)) = Some e -> is_last_word w e ->
  handle_key emacs_core E (KAlt (ch ".")) (emacs_new, s) = ORet d (x, s') ->
  d = false /\ line_is s' (a ++ w ++ r) (length (a ++ w)).
Proof. exact dot_once. Qed.
Print Assumptions C32_once.

(** The full claim would allow any line and cursor for [n] presses; it is false
    (C32_refuted).  Here the cursor is at the end of a line that is empty or
    ends in a space, and no entry passed is blank. *)
Theorem C32_partial : forall s t l n e w d x s',
  line_is s t (length t) -> ends_space t -> is_search s = false -> ed_noeol s = false ->
  (forall i, ed_loc s = Some i -> i < length (texts (ed_history s))) ->
  let back := backwards (texts (ed_history s)) (ed_loc s) in
  map snd l = repeat (KAlt (ch ".")) n -> 0 < n ->
  nth_error back (Nat.min n (length back) - 1) = Some e -> is_last_word w e ->
  (forall y, In y (firstn n back) -> exists v, is_last_word v y) ->
  run_keys emacs_core l (emacs_new, s) = ORet d (x, s') ->
  d = false /\ line_is s' (t ++ w) (length (t ++ w)).
Proof. exact dot_walk. Qed.
Print Assumptions C32_partial.

Example C32_case :
  exists s l x s', line_is s (str "vi ") 3 /\ ends_space (str "vi ") /\ is_search s = false /\ ed_noeol s = false /\
    ed_loc s = None /\ backwards (texts (ed_history s)) None = [str "cat two "; str "ls -l one"] /\
    map snd l = repeat (KAlt (ch ".")) 2 /\ is_last_word (str "two") (str "cat two ") /\
    is_last_word (str "one") (str "ls -l one") /\
    run_keys emacs_core l (emacs_new, s) = ORet false (x, s').
Proof.
  destruct (emacs_run test_env [str "ls -l one"; str "cat two "] (keys (str "vi "))) as [[|] [x0 s]| | |] eqn:E0;
    try (vm_compute in E0; discriminate).
  destruct (run_keys emacs_core (map (pair test_env) (repeat (KAlt (ch ".")) 2)) (emacs_new, s)) as [[|] [x s']| | |] eqn:E1;
    try (vm_compute in E0; injection E0 as <- <-; vm_compute in E1; discriminate).
  exists s, (map (pair test_env) (repeat (KAlt (ch ".")) 2)), x, s'.
  vm_compute in E0. injection E0 as <- <-.
  split; [eexists; vm_compute; repeat split|].
  split; [right; exists (str "vi"); reflexivity|]. do 5 (split; [reflexivity|]).
  split; [|split; [|exact E1]].
  - split; [discriminate|]. split; [intro H; repeat (destruct H as [H|H]; [discriminate H|]); exact H|].
    exists (str "cat "), 1. split; [reflexivity|right; exists (str "cat"); reflexivity].
  - split; [discriminate|]. split; [intro H; repeat (destruct H as [H|H]; [discriminate H|]); exact H|].
    exists (str "ls -l "), 0. split; [reflexivity|right; exists (str "ls -l"); reflexivity].
Qed.

(** With "x" on the line two presses give "one" instead of "xone": the second
    one removes the whole word the argument was joined to. *)
Theorem C32_refuted :
  exists s l x s', line_is s (str "x") 1 /\ is_search s = false /\ ed_loc s = None /\
    backwards (texts (ed_history s)) None = [str "cat two"; str "ls -l one"] /\
    map snd l = repeat (KAlt (ch ".")) 2 /\
    run_keys emacs_core l (emacs_new, s) = ORet false (x, s') /\
    line_is s' (str "one") 3.
Proof.
  destruct (emacs_run test_env [str "ls -l one"; str "cat two"] (keys (str "x"))) as [[|] [x0 s]| | |] eqn:E0;
    try (vm_compute in E0; discriminate).
  destruct (run_keys emacs_core (map (pair test_env) (repeat (KAlt (ch ".")) 2)) (emacs_new, s)) as [[|] [x s']| | |] eqn:E1;
    try (vm_compute in E0; injection E0 as <- <-; vm_compute in E1; discriminate).
  exists s, (map (pair test_env) (repeat (KAlt (ch ".")) 2)), x, s'.
  vm_compute in E0. injection E0 as <- <-. vm_compute in E1. injection E1 as <- <-.
  split; [eexists; vm_compute; repeat split|]. do 5 (split; [reflexivity|]). eexists; vm_compute; repeat split.
Qed.
Print Assumptions C32_refuted.
