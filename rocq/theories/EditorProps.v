(** Properties of src/editor.rs and of whole sessions: C21, C23, C27, C28, C30,
    C31, C33, C34, C43, C44 and the added C56-C59. *)
From Verif Require Import Base BufferModel BufferSpec UtilModel HistoryModel HistorySpec EditorState
  EditorModel KeymapModel ViModel Tests Samples EditorSpec CursorProofs ErrorProofs EditorProofs
  SuggestProofs SuggestSession SearchProofs SessionProofs.
From Coq Require Import Sorting.Permutation.
Local Open Scope monad_scope.

(** ** C21: the cursor stays inside the line *)
Theorem C21_emacs_cursor : forall E p f ib h w cb ttys s keys d k s',
  editor_new E p f ib h w cb ttys = ORet tt s ->
  run_keys emacs_core keys (emacs_new, s) = ORet d (k, s') ->
  exists b, cur_buf s' = Val b /\ ed_cursor s' <= num_chars b.
Proof. exact emacs_cursor. Qed.
Print Assumptions C21_emacs_cursor.

Theorem C21_vi_cursor : forall E p f ib h w cb ttys s keys d k s',
  editor_new E p f ib h w cb ttys = ORet tt s ->
  (vi_init E ;;; run_keys vi_core keys) (vi_new, s) = ORet d (k, s') ->
  exists b, cur_buf s' = Val b /\ ed_cursor s' <= num_chars b /\
    (vmode_of k = MNormal -> data b <> [] -> ed_cursor s' < num_chars b).
Proof. exact vi_cursor. Qed.
Print Assumptions C21_vi_cursor.

Example C21_case :
  seen (emacs_run test_env [str "one"] (keys (str "ab") ++ [KUp; KDown; KLeft])) = Some (false, str "ab", 1) /\
  seen (vi_run test_env [] (keys (str "abc") ++ [KEsc])) = Some (false, str "abc", 2) /\
  vmode_of (match vi_run test_env [] (keys (str "abc") ++ [KEsc]) with ORet _ (k, _) => k | _ => vi_new end) = MNormal.
Proof. vm_compute. auto. Qed.

(** ** C23: editing recalled lines never changes the stored history *)
Theorem C23_emacs_history : forall E p f ib h w cb ttys s keys,
  editor_new E p f ib h w cb ttys = ORet tt s -> h_share h = false ->
  match run_keys emacs_core keys (emacs_new, s) with
  | ORet _ (_, s') | OErr _ (_, s') => ed_history s' = h /\ ed_fs s' = w
  | _ => True
  end.
Proof. exact emacs_history. Qed.
Print Assumptions C23_emacs_history.

Theorem C23_vi_history : forall E p f ib h w cb ttys s keys,
  editor_new E p f ib h w cb ttys = ORet tt s -> h_share h = false ->
  match (vi_init E ;;; run_keys vi_core keys) (vi_new, s) with
  | ORet _ (_, s') | OErr _ (_, s') => ed_history s' = h /\ ed_fs s' = w
  | _ => True
  end.
Proof. exact vi_history. Qed.
Print Assumptions C23_vi_history.

Example C23_case :
  h_share (hist_of [str "one"; str "two"]) = false /\
  seen (emacs_run test_env [str "one"; str "two"] ([KUp; KBackspace] ++ keys (str "x"))) = Some (false, str "twx", 3) /\
  ed_history (emacs_ed [str "one"; str "two"] ([KUp; KBackspace] ++ keys (str "x"))) = hist_of [str "one"; str "two"] /\
  seen (vi_run test_env [str "one"; str "two"] [KEsc; KUp; KChar (ch "x")]) = Some (false, str "tw", 1) /\
  ed_history (vi_ed [str "one"; str "two"] [KEsc; KUp; KChar (ch "x")]) = hist_of [str "one"; str "two"].
Proof. vm_compute. auto 6. Qed.

(** ** C27: Enter returns the line unless it continues *)
Theorem C27_enter : forall K (core : env -> key -> MK K unit) E x s b d x' s',
  is_search s = false -> cur_buf s = Val b ->
  handle_key core E (KChar c_nl) (x, s) = ORet d (x', s') ->
  x' = x /\
  (d = true <-> ed_hint s = None /\ ~ after_backslash (data b) (ed_cursor s)) /\
  (d = true -> ed_result s' = Val (data b)) /\
  (d = false -> ed_hint s <> None -> line_is s' (data b) (ed_cursor s) /\ ed_hint s' = None) /\
  (d = false -> ed_hint s = None -> exists a r, data b = a ++ r /\ length a = ed_cursor s /\
     line_is s' (a ++ c_nl :: r)
       (clamp_cursor (ed_noeol s) (S (length (data b))) (S (ed_cursor s)))).
Proof. exact @enter_plain_key. Qed.
Print Assumptions C27_enter.

(** During a search the line is first replaced by the selected entry. *)
Theorem C27_enter_search : forall K (core : env -> key -> MK K unit) E x s b g d x' s',
  is_search s = true -> ed_showauto s = true -> cur_buf s = Val b -> ed_sugg s = Some g ->
  handle_key core E (KChar c_nl) (x, s) = ORet d (x', s') ->
  x' = x /\
  (d = true <-> ed_hint s = None /\
     ~ after_backslash (data g) (clamp_cursor (ed_noeol s) (length (data g)) (length (data g)))) /\
  (d = true -> ed_result s' = Val (data g)).
Proof. exact @enter_search_key. Qed.
Print Assumptions C27_enter_search.

Example C27_case :
  let s := emacs_ed [] (keys (str "ab\")) in
  is_search s = false /\ ed_hint s = None /\ line_is s (str "ab\") 3 /\
  after_backslash (str "ab\") 3 /\ ~ after_backslash (str "ab\") 2 /\
  seen (emacs_run test_env [] (keys (str "ab\") ++ [KChar c_nl])) = Some (false, str "ab\" ++ [c_nl], 4) /\
  seen (emacs_run test_env [] (keys (str "ab\") ++ [KLeft; KChar c_nl])) = Some (true, str "ab\", 3) /\
  seen (emacs_run test_env [str "xay"] (keys (str "a") ++ [KCtrl (ch "r"); KChar c_nl])) = Some (true, str "xay", 3).
Proof.
  split; [reflexivity|]. split; [reflexivity|]. split; [eexists; vm_compute; auto|].
  split; [exists (str "ab"), []; auto|].
  split; [intros (a & r & H1 & H2); destruct a as [|? [|? [|]]]; try discriminate; cbn in H1; discriminate|].
  vm_compute. auto.
Qed.

(** ** C28: Ctrl-C and Ctrl-D *)
Theorem C28_ctrl_c : forall K (core : env -> key -> MK K unit) E x,
  match handle_key core E (KCtrl (ch "c")) x with
  | ORet _ _ => False
  | OErr e _ => e = EInterrupted \/ ttyerr E e
  | _ => True
  end.
Proof. exact @ctrl_c. Qed.
Print Assumptions C28_ctrl_c.

Theorem C28_ctrl_c_session : forall K (core : env -> key -> MK K unit) l E l' x d y,
  run_keys core (l ++ (E, KCtrl (ch "c")) :: l') x = ORet d y -> run_keys core l x = ORet true y.
Proof. exact @run_keys_ctrl_c. Qed.
Print Assumptions C28_ctrl_c_session.

Theorem C28_ctrl_d_empty : forall K (core : env -> key -> MK K unit) E x s b,
  cur_buf s = Val b -> data b = [] ->
  match handle_key core E (KCtrl (ch "d")) (x, s) with
  | ORet _ _ => False
  | OErr e _ => e = EUnexpectedEof \/ ttyerr E e
  | _ => True
  end.
Proof. exact @ctrl_d_empty. Qed.
Print Assumptions C28_ctrl_d_empty.

Theorem C28_ctrl_d_text : forall K (core : env -> key -> MK K unit) E x s b d y,
  cur_buf s = Val b -> data b <> [] ->
  handle_key core E (KCtrl (ch "d")) (x, s) = ORet d y -> d = false.
Proof. exact @ctrl_d_text. Qed.
Print Assumptions C28_ctrl_d_text.

Example C28_case :
  match emacs_run test_env [] (keys (str "ab") ++ [KCtrl (ch "c")]) with OErr EInterrupted _ => True | _ => False end /\
  match vi_run test_env [] [KEsc; KCtrl (ch "d")] with OErr EUnexpectedEof _ => True | _ => False end /\
  seen (emacs_run test_env [] (keys (str "ab") ++ [KLeft; KCtrl (ch "d")])) = Some (false, str "a", 1).
Proof. vm_compute. auto. Qed.

(** ** C56: a key fails only through the terminal, Ctrl-C, or Ctrl-D on an empty line *)
Theorem C56_emacs_errors : forall E k x s b e y, cur_buf s = Val b ->
  handle_key emacs_core E k (x, s) = OErr e y -> key_err E k (data b) e.
Proof. exact emacs_key_err. Qed.
Print Assumptions C56_emacs_errors.

Theorem C56_vi_errors : forall E k x s b e y, cur_buf s = Val b ->
  handle_key vi_core E k (x, s) = OErr e y -> key_err E k (data b) e.
Proof. exact vi_key_err. Qed.
Print Assumptions C56_vi_errors.

Example C56_case : exists y,
  handle_key emacs_core (mkEnv ascii_uni (Some 80) false (Some 80) get_buffer_words (fun _ => []))
    (KChar (ch "a")) (emacs_new, emacs_ed [] []) = OErr EOther y.
Proof. eexists. vm_compute. reflexivity. Qed.

(** ** C30: the suggestion is the newest history line extending the input *)
Theorem C30_suggestion : forall E s u s',
  ed_loc s = None -> ed_hvalid s = false -> is_search s = false -> ed_showauto s = true ->
  display E s = ORet u s' ->
  match ed_sugg s' with
  | Some g => data (ed_new s) <> [] /\
      newest_extending (texts (ed_history s)) (data (ed_new s)) (data g)
  | None => data (ed_new s) = [] \/
      forall x, In x (texts (ed_history s)) -> ~ extends (data (ed_new s)) x
  end.
Proof. exact suggestion_out. Qed.
Print Assumptions C30_suggestion.

Theorem C30_accept : forall K (core : env -> key -> MK K unit) E E' s u s1 g x d x' s2 k,
  ed_loc s = None -> ed_hvalid s = false -> is_search s = false -> ed_showauto s = true ->
  ed_noeol s = false ->
  display E s = ORet u s1 -> ed_sugg s1 = Some g ->
  k = KCtrl (ch "f") \/ (k = KRight /\ ed_cursor s1 = length (data (ed_new s))) ->
  handle_key core E' k (x, s1) = ORet d (x', s2) ->
  d = false /\ x' = x /\ line_is s2 (data g) (length (data g)) /\ ed_loc s2 = None /\
  exists b'', buf_undo (ed_new s2) = Val (true, b'') /\ data b'' = data (ed_new s).
Proof. exact @suggest_accept. Qed.
Print Assumptions C30_accept.

Example C30_case :
  let s := emacs_ed [str "ab1"; str "ab2"; str "b"] (keys (str "ab")) in
  ed_loc s = None /\ ed_hvalid s = false /\ is_search s = false /\ ed_showauto s = true /\ ed_noeol s = false /\
  option_map data (ed_sugg s) = Some (str "ab2") /\
  seen (emacs_run test_env [str "ab1"; str "ab2"; str "b"] (keys (str "ab") ++ [KRight])) = Some (false, str "ab2", 3).
Proof. vm_compute. auto 8. Qed.

(** In every Emacs or Vi session, whenever the new line is shown outside a search, the suggestion is
    the right one. *)
Theorem C30_emacs : forall E p f ib h w cb ttys s l d k' s', editor_new E p f ib h w cb ttys = ORet tt s ->
  run_keys emacs_core l (emacs_new, s) = ORet d (k', s') -> is_search s' = false -> ed_loc s' = None ->
  suggests (texts (ed_history s')) (data (ed_new s')) (ed_sugg s').
Proof. exact emacs_suggestion. Qed.
Print Assumptions C30_emacs.

Theorem C30_vi : forall E p f ib h w cb ttys s E0 l d k' s', editor_new E p f ib h w cb ttys = ORet tt s ->
  (vi_init E0 ;;; run_keys vi_core l) (vi_new, s) = ORet d (k', s') -> is_search s' = false -> ed_loc s' = None ->
  suggests (texts (ed_history s')) (data (ed_new s')) (ed_sugg s').
Proof. exact vi_suggestion. Qed.
Print Assumptions C30_vi.

(** Accepting it in a session. *)
Theorem C30_emacs_accept : forall E p f ib h w cb ttys s l d k' s' E' g c k d' k2 s2,
  editor_new E p f ib h w cb ttys = ORet tt s -> run_keys emacs_core l (emacs_new, s) = ORet d (k', s') ->
  is_search s' = false -> ed_loc s' = None -> ed_sugg s' = Some g -> line_is s' (data (ed_new s')) c ->
  k = KCtrl (ch "f") \/ (k = KRight /\ c = length (data (ed_new s'))) ->
  handle_key emacs_core E' k (k', s') = ORet d' (k2, s2) ->
  d' = false /\ line_is s2 (data g) (length (data g)) /\ ed_loc s2 = None /\
  exists b, buf_undo (ed_new s2) = Val (true, b) /\ data b = data (ed_new s').
Proof. exact emacs_accept. Qed.
Print Assumptions C30_emacs_accept.

Theorem C30_vi_accept : forall E p f ib h w cb ttys s l d v s' E' g c k d' v2 s2,
  editor_new E p f ib h w cb ttys = ORet tt s -> (vi_init E ;;; run_keys vi_core l) (vi_new, s) = ORet d (v, s') ->
  is_search s' = false -> ed_loc s' = None -> ed_sugg s' = Some g -> line_is s' (data (ed_new s')) c ->
  k = KCtrl (ch "f") \/
  (k = KRight /\ (vmode_of v = MNormal -> c = length (data (ed_new s')) - 1) /\
                 (vmode_of v <> MNormal -> c = length (data (ed_new s')))) ->
  handle_key vi_core E' k (v, s') = ORet d' (v2, s2) ->
  d' = false /\ v2 = v /\ (vmode_of v = MNormal -> line_is s2 (data g) (length (data g) - 1)) /\
  (vmode_of v <> MNormal -> line_is s2 (data g) (length (data g))) /\ ed_loc s2 = None /\
  exists b, buf_undo (ed_new s2) = Val (true, b) /\ data b = data (ed_new s').
Proof. exact vi_accept. Qed.
Print Assumptions C30_vi_accept.

Example C30_session_case :
  (exists s k s' k2 s2, sample_new test_env [str "ab1"; str "ab2"; str "b"] = ORet tt s /\
     run_keys emacs_core (map (pair test_env) (keys (str "abx") ++ [KUp; KDown; KBackspace])) (emacs_new, s) = ORet false (k, s') /\
     is_search s' = false /\ ed_loc s' = None /\ option_map data (ed_sugg s') = Some (str "ab2") /\
     handle_key emacs_core test_env KRight (k, s') = ORet false (k2, s2) /\ line_is s2 (str "ab2") 3) /\
  (exists s v s' v2 s2, sample_new test_env [str "ab1"; str "ab2"; str "b"] = ORet tt s /\
     (vi_init test_env ;;; run_keys vi_core (map (pair test_env) (keys (str "ab") ++ [KEsc]))) (vi_new, s) = ORet false (v, s') /\
     is_search s' = false /\ ed_loc s' = None /\ option_map data (ed_sugg s') = Some (str "ab2") /\ vmode_of v = MNormal /\
     handle_key vi_core test_env KRight (v, s') = ORet false (v2, s2) /\ line_is s2 (str "ab2") 2).
Proof.
  split.
  - eexists _, _, _, _, _. split; [vm_compute; reflexivity|]. split; [vm_compute; reflexivity|].
    do 3 (split; [vm_compute; reflexivity|]). split; [vm_compute; reflexivity|].
    eexists. split; [vm_compute; reflexivity|]. split; reflexivity.
  - eexists _, _, _, _, _. split; [vm_compute; reflexivity|]. split; [vm_compute; reflexivity|].
    do 4 (split; [vm_compute; reflexivity|]). split; [vm_compute; reflexivity|].
    eexists. split; [vm_compute; reflexivity|]. split; reflexivity.
Qed.

(** ** C31: incremental search. False as stated: after browsing with a prefix
    the search starts from the entry browsed to. *)
Theorem C31_refuted : exists E s u s' i j, is_search s = false /\ search E false s = ORet u s' /\
  selected s' (Some i) /\ matches s' j /\ i < j.
Proof.
  exists test_env, (emacs_ed [str "a1"; str "a2"; str "a3"] (keys (str "a") ++ [KUp; KUp])).
  eexists tt, _, 1, 2. split; [reflexivity|]. split; [vm_compute; reflexivity|].
  split; [split; [reflexivity|]; eexists; split; [reflexivity|]; split; [reflexivity|]; split; [discriminate|]|].
  - exists (str "a2"). split; [reflexivity|]. exists [], (str "2"). reflexivity.
  - split; [|lia]. split; [discriminate|]. exists (str "a3"). split; [reflexivity|]. exists [], (str "3"). reflexivity.
Qed.
Print Assumptions C31_refuted.

(** The first selection is the newest (oldest) match when nothing was selected before. *)
Theorem C31_start_partial : forall E fwd s u s', is_search s = false ->
  search_history_loc s = None -> search E fwd s = ORet u s' ->
  ed_new s' = ed_new s /\ searching s' /\ exists o, selected s' o /\
  match o with
  | Some i => if fwd then forall k, matches s' k -> i <= k else forall k, matches s' k -> k <= i
  | None => True
  end.
Proof. exact search_start_selected. Qed.
Print Assumptions C31_start_partial.

(** Each further step moves to the next match, cyclically; no restriction on the start. *)
Theorem C31_step : forall E fwd s u s' i, searching s -> selected s (Some i) ->
  search E fwd s = ORet u s' ->
  searching s' /\ ed_new s' = ed_new s /\ ed_history s' = ed_history s /\
  exists j, selected s' (Some j) /\ next_match (matches s) fwd i j.
Proof. exact search_step_next. Qed.
Print Assumptions C31_step.

Theorem C31_tour : forall E fwd s u s1 l ms, is_search s = false -> search E fwd s = ORet u s1 ->
  NoDup ms -> (forall i, In i ms <-> matches s1 i) -> chain E fwd s1 l -> length l = length ms ->
  Permutation (map search_history_loc l) (map Some ms) /\
  forall s', In s' l -> ed_new s' = ed_new s /\ ed_history s' = ed_history s1 /\
    exists i, In i ms /\ selected s' (Some i).
Proof. exact search_tour. Qed.
Print Assumptions C31_tour.

Example C31_case :
  let h := [str "xa"; str "b"; str "ay"; str "a"] in
  search_history_loc (emacs_ed h (keys (str "a"))) = None /\
  map (fun n => search_history_loc (emacs_ed h (keys (str "a") ++ repeat (KCtrl (ch "r")) n))) [1; 2; 3; 4]
    = [Some 3; Some 2; Some 0; Some 3] /\
  seen (emacs_run test_env h (keys (str "a") ++ repeat (KCtrl (ch "r")) 3 ++ [KChar c_nl])) = Some (true, str "xa", 2).
Proof. vm_compute. auto. Qed.

(** ** C33: undo without edits. False on a recalled line: undo blanks it. *)
Theorem C33_refuted : exists E s i b, ed_loc s = Some i /\ is_search s = false /\ cur_buf s = Val b /\
  data b = str "one" /\ exists s', ed_undo E s = ORet true s' /\ line_is s' [] 0.
Proof.
  exists test_env, (emacs_ed [str "one"] [KUp]), 0. eexists. split; [reflexivity|]. split; [reflexivity|].
  split; [vm_compute; reflexivity|]. split; [reflexivity|]. eexists. split; [vm_compute; reflexivity|].
  eexists. split; [vm_compute; reflexivity|]. split; reflexivity.
Qed.
Print Assumptions C33_refuted.

(** True on the new line. *)
Theorem C33_new_line_partial : forall E s, ed_loc s = None -> is_search s = false ->
  actions (ed_new s) = [] ->
  match ed_undo E s with
  | ORet d s' => d = false /\ cur_buf s' = Val (ed_new s)
  | _ => True
  end.
Proof. exact undo_nothing_new. Qed.
Print Assumptions C33_new_line_partial.

Example C33_case :
  let s := emacs_ed [str "one"] [KUp; KDown] in
  ed_loc s = None /\ is_search s = false /\ actions (ed_new s) = [] /\
  match ed_undo test_env s with ORet false s' => ed_result s' = Val [] | _ => False end.
Proof. vm_compute. auto. Qed.

(** ** C57: what undo does on every recalled line that has not been edited *)
Theorem C57_undo_recalled : forall E s i b, ed_loc s = Some i -> ed_hvalid s = false -> is_search s = false ->
  cur_buf s = Val b ->
  match ed_undo E s with
  | ORet d s' => d = true /\ line_is s' [] 0
  | _ => True
  end.
Proof. exact undo_recalled. Qed.
Print Assumptions C57_undo_recalled.

Example C57_case :
  let s := emacs_ed [str "one"] [KUp] in
  ed_loc s = Some 0 /\ ed_hvalid s = false /\ is_search s = false /\
  match ed_undo test_env s with ORet true s' => ed_result s' = Val [] | _ => False end.
Proof. vm_compute. auto. Qed.

(** ** C34: take_exec_buffer. False as stated: an unedited recalled entry is emptied. *)
Theorem C34_refuted : exists s t s', take_exec_buffer s = ORet t s' /\
  texts (ed_history s) = [str "one"] /\ texts (ed_history s') = [[]].
Proof.
  exists (emacs_ed [str "one"] [KUp]), (str "one"). eexists.
  split; [vm_compute; reflexivity|]. split; reflexivity.
Qed.
Print Assumptions C34_refuted.

(** The text returned is always the line, and the line is empty afterwards; the history changes in that one case only. *)
Theorem C34_exact_partial : forall s b, cur_buf s = Val b ->
  exists s', take_exec_buffer s = ORet (data b) s' /\
    cur_buf s' = Val buf_new /\ ed_loc s' = ed_loc s /\ (ed_loc s <> None -> ed_new s' = ed_new s) /\
    (ed_loc s = None \/ ed_hvalid s = true -> ed_history s' = ed_history s) /\
    (forall i, ed_loc s = Some i -> ed_hvalid s = false ->
       exists old new, buffers (ed_history s) = old ++ b :: new /\ length old = i /\
         buffers (ed_history s') = old ++ buf_new :: new).
Proof. exact take_exec_out. Qed.
Print Assumptions C34_exact_partial.

Example C34_case :
  let s := emacs_ed [str "one"] (KUp :: keys (str "x")) in
  ed_hvalid s = true /\ line_is s (str "onex") 4 /\
  match take_exec_buffer s with ORet t s' => t = str "onex" /\ texts (ed_history s') = [str "one"] | _ => False end.
Proof. split; [reflexivity|]. split; [eexists; vm_compute; auto|vm_compute; auto]. Qed.

(** ** C43: clear() clears the terminal. False: the sequence only goes to a
    buffer that is never written out. *)
Theorem C43_refuted : exists E s s', clear E s = ORet tt s' /\ ~ In TClearAll (ed_tty s').
Proof.
  exists test_env, (emacs_ed [] (keys (str "ab"))). eexists. split; [vm_compute; reflexivity|].
  vm_compute. intuition discriminate.
Qed.
Print Assumptions C43_refuted.

(** ** C58: what clear() does, in every state *)
Theorem C58_clear : forall E s u s', clear E s = ORet u s' ->
  exists t, ed_tty s' = ed_tty s ++ t /\ ~ In TClearAll t /\
    ed_cbuf s' = ed_cbuf s ++ [TClearAll; TGoto11] ++ t.
Proof. exact clear_out. Qed.
Print Assumptions C58_clear.

Example C58_case : match clear test_env (emacs_ed [] (keys (str "ab"))) with
  | ORet _ s' => length (ed_tty (emacs_ed [] (keys (str "ab")))) <? length (ed_tty s') | _ => false end = true.
Proof. vm_compute. reflexivity. Qed.

(** ** C44: completion list layout. False as stated: with a multiple of the
    number of columns the reported number of rows is one too many. *)
Theorem C44_refuted : exists w comps t n, print_completion_list w comps None = Val (t, n) /\
  length (rows t) <> 1 + n.
Proof. exists 8, [str "one"; str "two"]. eexists _, _. split; [vm_compute; reflexivity|]. vm_compute. discriminate. Qed.
Print Assumptions C44_refuted.

(** Everything else holds, and the two row counts are these. *)
Theorem C44_layout_partial : forall w comps hl, exists t n,
  print_completion_list w comps hl = Val (t, n) /\
  let '(cw, cols) := completion_cols w comps in
  Forall2 (fun c x => padded c x cw) comps (tok_texts t) /\
  (forall r, In r (rows t) -> length (tok_texts r) <= cols) /\
  (forall k r, nth_error (rows t) k = Some r -> S k < length (rows t) -> length (tok_texts r) = cols) /\
  length (rows t) = 1 + (length comps - 1) / cols /\
  n = length comps / cols.
Proof. exact print_list_spec. Qed.
Print Assumptions C44_layout_partial.

Example C44_case : completion_cols 20 [str "one"; str "two"; str "three"] = (7, 2) /\
  match print_completion_list 20 [str "one"; str "two"; str "three"] None with
  | Val (t, n) => tok_texts t = [str "one    "; str "two    "; str "three  "] /\ length (rows t) = 2 /\ n = 1
  | _ => False end.
Proof. vm_compute. auto. Qed.

(** ** C59: no row of the list is wider than the terminal when a column fits it *)
Theorem C59_list_fits : forall w comps hl t n, print_completion_list w comps hl = Val (t, n) ->
  fst (completion_cols w comps) <= w -> forall r, In r (rows t) -> length (concat (tok_texts r)) <= w.
Proof. exact print_list_fits. Qed.
Print Assumptions C59_list_fits.

Example C59_case : fst (completion_cols 20 [str "one"; str "two"; str "three"]) <= 20.
Proof. apply Nat.leb_le. vm_compute. reflexivity. Qed.
