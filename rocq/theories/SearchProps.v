(** Property theorems for C74 (a search follows its term) and C31 in whole sessions. *)
From Verif Require Import Base Utf8 BufferModel UtilModel HistoryModel BufferSpec HistorySpec EditorState EditorModel
  KeymapModel ViModel EditorSpec Samples Tests SearchSpec SearchSession SearchFollow.
Local Open Scope monad_scope.

(** ** C74: whatever keys are pressed, a running search shows a match of its
    term, or nothing if there is none. *)
Theorem C74_emacs_shows : forall E p f ib h w cb ttys s l d k' s', editor_new E p f ib h w cb ttys = ORet tt s ->
  run_keys emacs_core l (emacs_new, s) = ORet d (k', s') -> is_search s' = true -> exists o, selected s' o.
Proof. exact emacs_shows. Qed.
Print Assumptions C74_emacs_shows.

Theorem C74_vi_shows : forall E p f ib h w cb ttys s E0 l d v' s', editor_new E p f ib h w cb ttys = ORet tt s ->
  (vi_init E0 ;;; run_keys vi_core l) (vi_new, s) = ORet d (v', s') -> is_search s' = true -> exists o, selected s' o.
Proof. exact vi_shows. Qed.
Print Assumptions C74_vi_shows.

(** Typing or deleting a character of the term: the search goes on with the new
    term from the entry it stood at. *)
Theorem C74_emacs_types : forall E k a a' r kk s d k' s' o, edits k a a' ->
  is_search s = true -> ed_loc s = None -> ed_noeol s = false -> line_is s (a ++ r) (length a) -> selected s o ->
  handle_key emacs_core E k (kk, s) = ORet d (k', s') ->
  d = false /\ is_search s' = true /\ ed_loc s' = None /\ ed_history s' = ed_history s /\ line_is s' (a' ++ r) (length a') /\
  data (ed_new s') = a' ++ r /\ exists o', selected s' o' /\ follows (matches s') (ed_fwd s) o o'.
Proof. exact emacs_follows. Qed.
Print Assumptions C74_emacs_types.

Theorem C74_vi_types : forall E k a a' r v s d v' s' o, edits k a a' -> vmode_of v = MInsert ->
  is_search s = true -> ed_loc s = None -> ed_noeol s = false -> line_is s (a ++ r) (length a) -> selected s o ->
  handle_key vi_core E k (v, s) = ORet d (v', s') ->
  d = false /\ is_search s' = true /\ ed_loc s' = None /\ ed_history s' = ed_history s /\ line_is s' (a' ++ r) (length a') /\
  data (ed_new s') = a' ++ r /\ exists o', selected s' o' /\ follows (matches s') (ed_fwd s) o o'.
Proof. exact vi_follows. Qed.
Print Assumptions C74_vi_types.

(** The excluded case: Alt-< in a search moves to a history line, and the next
    character typed is lost. *)
Theorem C74_lost_refuted : exists E l k s k' s' t n o, emacs_run test_env (map str ["ab"; "b"]%string) l = ORet false (k, s) /\
  is_search s = true /\ selected s o /\ line_is s t n /\
  handle_key emacs_core E (KChar (ch "x")) (k, s) = ORet false (k', s') /\
  is_search s' = true /\ data (ed_new s') = data (ed_new s) /\ cur_buf s' = Val (ed_new s') /\ ~ In (ch "x") (data (ed_new s')).
Proof.
  exists test_env, (keys (str "b") ++ [KCtrl (ch "r"); KAlt (ch "<")]). do 4 eexists. exists (str "ab"), 2, (Some 1).
  split; [vm_compute; reflexivity|]. split; [reflexivity|].
  split.
  { split; [reflexivity|]. eexists. split; [reflexivity|]. split; [reflexivity|]. split; [discriminate|].
    exists (str "b"). split; [reflexivity|]. exists [], []. reflexivity. }
  split; [eexists; split; [reflexivity|]; split; reflexivity|].
  split; [vm_compute; reflexivity|]. split; [reflexivity|]. split; [reflexivity|]. split; [reflexivity|].
  vm_compute. intros [H|[]]. discriminate.
Qed.
Print Assumptions C74_lost_refuted.

(** Ctrl-r over "b": the newest "xab"; typing 1 goes back to "ab1", typing
    nothing that matches loses it, Backspace finds it again from the newest. *)
Example C74_emacs_case :
  let h := map str ["ab1"; "cb"; "b1x"; "xab"]%string in
  let at_ l := search_history_loc (emacs_ed h (keys (str "b") ++ KCtrl (ch "r") :: l)) in
  edits (KChar (ch "1")) (str "b") (str "b1") /\ edits KBackspace (str "b1") (str "b") /\
  match emacs_run test_env h (keys (str "b") ++ [KCtrl (ch "r"); KCtrl (ch "r"); KCtrl (ch "r")]) with
  | ORet false (k, s) => is_search s = true /\ ed_loc s = None /\ ed_noeol s = false /\
      line_is s (str "b" ++ []) (length (str "b")) /\ search_history_loc s = Some 1
  | _ => False
  end /\
  map at_ [[]; [KCtrl (ch "r")]; [KCtrl (ch "r"); KCtrl (ch "r"); KChar (ch "1")]; [KCtrl (ch "s"); KCtrl (ch "s"); KChar (ch "1")];
           [KChar (ch "q")]; [KChar (ch "q"); KBackspace]] = [Some 3; Some 2; Some 0; Some 0; None; Some 3].
Proof.
  cbv zeta. split; [apply (edits_char (ch "1") (str "b")); discriminate|]. split; [apply (edits_back (ch "1") (str "b"))|].
  split; [|vm_compute; reflexivity].
  vm_compute. repeat (split; [reflexivity|]). split; [eexists; split; [reflexivity|]; split; reflexivity|reflexivity].
Qed.

Example C74_vi_case :
  let h := map str ["ab1"; "cb"; "b1x"; "xab"]%string in
  let at_ l := search_history_loc (vi_ed h (keys (str "b") ++ KCtrl (ch "r") :: l)) in
  match vi_run test_env h (keys (str "b") ++ [KCtrl (ch "r"); KCtrl (ch "r"); KCtrl (ch "r")]) with
  | ORet false (v, s) => vmode_of v = MInsert /\ is_search s = true /\ ed_loc s = None /\ ed_noeol s = false /\
      line_is s (str "b" ++ []) (length (str "b")) /\ search_history_loc s = Some 1
  | _ => False
  end /\
  at_ [KCtrl (ch "r"); KCtrl (ch "r"); KChar (ch "1")] = Some 0 /\ at_ [KChar (ch "q"); KBackspace] = Some 3.
Proof.
  cbv zeta. split; [|vm_compute; split; reflexivity].
  vm_compute. repeat (split; [reflexivity|]). split; [eexists; split; [reflexivity|]; split; reflexivity|reflexivity].
Qed.

(** ** C31 in whole sessions: Ctrl-r and Ctrl-s move a running search to the
    next match, whatever keys led to it. *)
Theorem C31_emacs_session : forall E p f ib h w cb ttys s0 l k s E' fwd d k' s' i,
  editor_new E p f ib h w cb ttys = ORet tt s0 -> run_keys emacs_core l (emacs_new, s0) = ORet false (k, s) ->
  is_search s = true -> selected s (Some i) -> handle_key emacs_core E' (search_key fwd) (k, s) = ORet d (k', s') ->
  d = false /\ k' = k /\ is_search s' = true /\ ed_new s' = ed_new s /\ ed_history s' = ed_history s /\
  exists j, selected s' (Some j) /\ next_match (matches s) fwd i j.
Proof. exact emacs_steps. Qed.
Print Assumptions C31_emacs_session.

Theorem C31_vi_session : forall E p f ib h w cb ttys s0 E0 l v s E' fwd d v' s' i,
  editor_new E p f ib h w cb ttys = ORet tt s0 -> (vi_init E0 ;;; run_keys vi_core l) (vi_new, s0) = ORet false (v, s) ->
  is_search s = true -> selected s (Some i) -> handle_key vi_core E' (search_key fwd) (v, s) = ORet d (v', s') ->
  d = false /\ v' = v /\ is_search s' = true /\ ed_new s' = ed_new s /\ ed_history s' = ed_history s /\
  exists j, selected s' (Some j) /\ next_match (matches s) fwd i j.
Proof. exact vi_steps. Qed.
Print Assumptions C31_vi_session.

Example C31_session_case :
  let h := map str ["ab1"; "cb"; "b1x"; "xab"]%string in
  map (fun l => search_history_loc (vi_ed h (keys (str "b") ++ [KLeft; KCtrl (ch "r")] ++ l)))
      [[]; [KEsc]; [KEsc; KCtrl (ch "r")]; [KEsc; KCtrl (ch "s")]; [KEsc; KCtrl (ch "s"); KCtrl (ch "s")]]
  = [Some 3; Some 3; Some 2; Some 0; Some 1].
Proof. vm_compute. reflexivity. Qed.
