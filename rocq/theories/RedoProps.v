(** Ctrl-r under the Vi keys: C88. *)
From Verif Require Import Base BufferModel UtilModel HistoryModel EditorState EditorModel KeymapModel ViModel
  Tests Samples EditorSpec RedoProofs.

(** ** C88: under the Vi keys Ctrl-r does again what u took back

    False: the key never gets to the key map. *)
Theorem C88_refuted : exists v s v' s',
  vi_run test_env [] (keys (str "ab") ++ [KEsc; KChar (ch "u")]) = ORet false (v, s) /\ line_is s [] 0 /\
  (exists b, buf_redo (ed_new s) = Val (true, b) /\ data b = str "ab") /\
  handle_key vi_core test_env (KCtrl (ch "r")) (v, s) = ORet false (v', s') /\ line_is s' [] 0.
Proof.
  do 4 eexists. split; [vm_compute; reflexivity|]. split; [eexists; vm_compute; repeat split|].
  split; [eexists; vm_compute; repeat split|]. split; [vm_compute; reflexivity|]. eexists; vm_compute; repeat split.
Qed.
Print Assumptions C88_refuted.

(** Whatever the state, it starts or goes on with a search, and neither the new
    line nor the copy of a recalled one nor what can be undone and redone
    changes. *)
Theorem C88_partial : forall E v s d v' s',
  handle_key vi_core E (KCtrl (ch "r")) (v, s) = ORet d (v', s') ->
  d = false /\ v' = v /\ is_search s' = true /\ ed_new s' = ed_new s /\ ed_hist s' = ed_hist s.
Proof. exact (@ctrl_r_searches _ vi_core). Qed.
Print Assumptions C88_partial.

(** A line with something to redo, and an entry to find. *)
Example C88_case : exists v s v' s',
  vi_run test_env [str "xaby"] (keys (str "ab") ++ [KEsc; KChar (ch "x"); KChar (ch "u")]) = ORet false (v, s) /\
  handle_key vi_core test_env (KCtrl (ch "r")) (v, s) = ORet false (v', s') /\
  undone (ed_new s) <> [] /\ is_search s = false /\ data (ed_new s') = str "ab" /\ search_history_loc s' = Some 0.
Proof.
  do 4 eexists. split; [vm_compute; reflexivity|]. split; [vm_compute; reflexivity|]. vm_compute. repeat split; discriminate.
Qed.
