(** Browsing the history: C24. *)
From Verif Require Import Base BufferModel UtilModel HistoryModel EditorState EditorModel KeymapModel
  ViModel Tests Samples EditorSpec BrowseSpec ViRepeat ViCommands BrowseProofs.
Local Open Scope monad_scope.

(** ** C24: browsing history keeps the line being typed *)
Theorem C24_emacs : forall k s k' s' t c,
  line_is s t c -> ed_loc s = None -> emacs_browse (k, s) (k', s') -> ed_loc s' = None ->
  exists c', line_is s' t c'.
Proof. exact emacs_keeps_line. Qed.
Print Assumptions C24_emacs.

(** Alt-> always leads back. *)
Theorem C24_emacs_return : forall k s k' s' t c E d k'' s'',
  line_is s t c -> ed_loc s = None -> emacs_browse (k, s) (k', s') ->
  handle_key emacs_core E (KAlt (ch ">")) (k', s') = ORet d (k'', s'') ->
  d = false /\ ed_loc s'' = None /\ exists c', line_is s'' t c'.
Proof. exact emacs_returns. Qed.
Print Assumptions C24_emacs_return.

(** The full claim, with [.] among the editing keys too, is false (C24_dot_refuted
    below); missing here is exactly that key. *)
Theorem C24_vi_partial : forall E l s0 d v s v' s' t c,
  (vi_init E ;;; run_keys vi_core l) (vi_new, s0) = ORet d (v, s) ->
  line_is s t c -> ed_loc s = None -> vi_browse (v, s) (v', s') -> ed_loc s' = None ->
  exists c', line_is s' t c'.
Proof. exact vi_keeps_line. Qed.
Print Assumptions C24_vi_partial.

(** Typing "two", recalling "two b", editing it (Backspace, x, Left) and going back. *)
Example C24_emacs_case :
  exists k s k' s', line_is s (str "two") 3 /\ ed_loc s = None /\ emacs_browse (k, s) (k', s') /\
    line_is s' (str "two x") 4 /\ ed_loc s' = Some 0 /\
    exists k'' s'', handle_key emacs_core test_env (KAlt (ch ">")) (k', s') = ORet false (k'', s'').
Proof.
  destruct (emacs_run test_env [str "two b"] (keys (str "two"))) as [[|] [k s]| | |] eqn:E1; try (vm_compute in E1; discriminate).
  destruct (run_keys emacs_core (map (pair test_env) [KUp; KBackspace; kch "x"; KLeft]) (k, s)) as [[|] [k' s']| | |] eqn:E2;
    try (vm_compute in E1; injection E1 as <- <-; vm_compute in E2; discriminate).
  exists k, s, k', s'.
  assert (B : emacs_browse (k, s) (k', s')).
  { apply (browseb_ok emacs_moves (fun _ => True) emacs_movesb (fun _ => true) emacs_core test_env
             emacs_movesb_ok (fun _ _ => I) [KUp; KBackspace; kch "x"; KLeft]); [|exact E2].
    vm_compute in E1. injection E1 as <- <-. vm_compute. reflexivity. }
  vm_compute in E1. injection E1 as <- <-. vm_compute in E2. injection E2 as <- <-.
  split; [eexists; vm_compute; repeat split|]. split; [reflexivity|]. split; [exact B|].
  split; [eexists; vm_compute; repeat split|]. split; [reflexivity|]. eexists. eexists. vm_compute. reflexivity.
Qed.

Example C24_vi_case :
  exists s0 v s v' s',
    (vi_init test_env ;;; run_keys vi_core (map (pair test_env) (keys (str "two") ++ [KEsc]))) (vi_new, s0) = ORet false (v, s) /\
    line_is s (str "two") 2 /\ ed_loc s = None /\ vi_browse (v, s) (v', s') /\ ed_loc s' = None.
Proof.
  destruct (sample_new test_env [str "two b"]) as [[] s0| | |] eqn:E0; try (vm_compute in E0; discriminate).
  destruct ((vi_init test_env ;;; run_keys vi_core (map (pair test_env) (keys (str "two") ++ [KEsc]))) (vi_new, s0))
    as [[|] [v s]| | |] eqn:E1; try (vm_compute in E0; injection E0 as <-; vm_compute in E1; discriminate).
  destruct (run_keys vi_core (map (pair test_env) ([kch "k"; kch "x"; kch "0"; kch "i"; kch "q"; KEsc; KDown])) (v, s))
    as [[|] [v' s']| | |] eqn:E2;
    try (vm_compute in E0; injection E0 as <-; vm_compute in E1; injection E1 as <- <-; vm_compute in E2; discriminate).
  exists s0, v, s, v', s'. split; [exact E1|].
  assert (B : vi_browse (v, s) (v', s')).
  { apply (browseb_ok vi_moves (fun k => k <> kch ".") vi_movesb (fun k => if key_dec k (kch ".") then false else true)
             vi_core test_env vi_movesb_ok) with (l := [kch "k"; kch "x"; kch "0"; kch "i"; kch "q"; KEsc; KDown]);
      [intros k Hk; destruct (key_dec k (kch ".")); [discriminate|assumption]| |exact E2].
    vm_compute in E0. injection E0 as <-. vm_compute in E1. injection E1 as <- <-. vm_compute. reflexivity. }
  vm_compute in E0. injection E0 as <-. vm_compute in E1. injection E1 as <- <-. vm_compute in E2. injection E2 as <- <-.
  split; [eexists; vm_compute; repeat split|]. split; [reflexivity|]. split; [exact B|reflexivity].
Qed.

(** With [.] allowed among the editing keys it fails: after [cc] the text typed
    on the recalled entry is replayed as commands, here [j] and [x]. *)
Theorem C24_dot_refuted :
  exists E l s0 d v s v' s' t c,
    (vi_init E ;;; run_keys vi_core l) (vi_new, s0) = ORet d (v, s) /\
    line_is s t c /\ ed_loc s = None /\ browse vi_moves (fun _ => True) vi_core (v, s) (v', s') /\ ed_loc s' = None /\
    ~ exists c', line_is s' t c'.
Proof.
  exists test_env, (map (pair test_env) (keys (str "two") ++ [KEsc])).
  destruct (sample_new test_env [str "two b"]) as [[] s0| | |] eqn:E0; try (vm_compute in E0; discriminate).
  destruct ((vi_init test_env ;;; run_keys vi_core (map (pair test_env) (keys (str "two") ++ [KEsc]))) (vi_new, s0))
    as [[|] [v s]| | |] eqn:E1; try (vm_compute in E0; injection E0 as <-; vm_compute in E1; discriminate).
  set (l := keys (str "kxccjx") ++ [KEsc; kch "."]).
  destruct (run_keys vi_core (map (pair test_env) l) (v, s)) as [[|] [v' s']| | |] eqn:E2;
    try (vm_compute in E0; injection E0 as <-; vm_compute in E1; injection E1 as <- <-; vm_compute in E2; discriminate).
  exists s0, false, v, s, v', s', (str "two"), 2. split; [exact E1|].
  assert (B : browse vi_moves (fun _ => True) vi_core (v, s) (v', s')).
  { apply (browseb_ok vi_moves (fun _ => True) vi_movesb (fun _ => true) vi_core test_env
             vi_movesb_ok (fun _ _ => I) l); [|exact E2].
    vm_compute in E0. injection E0 as <-. vm_compute in E1. injection E1 as <- <-. vm_compute. reflexivity. }
  vm_compute in E0. injection E0 as <-. vm_compute in E1. injection E1 as <- <-. vm_compute in E2. injection E2 as <- <-.
  split; [eexists; vm_compute; repeat split|]. split; [reflexivity|]. split; [exact B|]. split; [reflexivity|].
  intros [c' [b [H1 [H2 _]]]]. vm_compute in H1. injection H1 as <-. vm_compute in H2. discriminate.
Qed.
Print Assumptions C24_dot_refuted.
