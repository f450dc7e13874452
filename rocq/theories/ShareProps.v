(** C75: a history shared with other processes is read again when it is looked
    at, and only then. *)
From Verif Require Import Base Utf8 BufferModel UtilModel HistoryModel UtilSpec HistorySpec HistoryFiles EditorState EditorModel EditorSpec
  KeymapModel ViModel WalkSpec ShareSpec ShareRuns Tests Samples.
Local Open Scope monad_scope.

(** Editing changes no file, and the history in memory stays as it was or
    becomes what one reading of its file makes of it. *)
Theorem C75_emacs_files : forall E p f ib h w cb ttys s keys,
  editor_new E p f ib h w cb ttys = ORet tt s ->
  match run_keys emacs_core keys (emacs_new, s) with
  | ORet _ (_, s') | OErr _ (_, s') =>
    ed_fs s' = w /\ (ed_history s' = h \/ h_share h = true /\ ed_history s' = snd (load_history w h false))
  | _ => True
  end.
Proof. exact emacs_files. Qed.
Print Assumptions C75_emacs_files.

Theorem C75_vi_files : forall E p f ib h w cb ttys s keys,
  editor_new E p f ib h w cb ttys = ORet tt s ->
  match (vi_init E ;;; run_keys vi_core keys) (vi_new, s) with
  | ORet _ (_, s') | OErr _ (_, s') =>
    ed_fs s' = w /\ (ed_history s' = h \/ h_share h = true /\ ed_history s' = snd (load_history w h false))
  | _ => True
  end.
Proof. exact vi_files. Qed.
Print Assumptions C75_vi_files.

(** A key that looks at the history reads the file as other processes left it.
    From then on the entries stay, whatever happens to the file, until Enter or
    Down is pressed. *)
Theorem C75_emacs_reads : forall w E k kk s d y0 y r,
  shared_file w (ed_history s) r -> ed_fresh s = false -> is_search s = false -> emacs_looks k ->
  handle_key emacs_core E k (kk, set_fs w s) = ORet d y0 -> shared_run emacs_core emacs_steady y0 y ->
  fetched (ed_history s) r (texts (ed_history (snd y))).
Proof. exact emacs_reads. Qed.
Print Assumptions C75_emacs_reads.

Theorem C75_vi_reads : forall E0 s0 x0 w E k v s d y0 y r,
  vi_init E0 (vi_new, s0) = ORet tt x0 -> shared_run vi_core any_key x0 (v, s) ->
  shared_file w (ed_history s) r -> ed_fresh s = false -> is_search s = false -> vi_looks v k ->
  handle_key vi_core E k (v, set_fs w s) = ORet d y0 -> shared_run vi_core vi_steady y0 y ->
  fetched (ed_history s) r (texts (ed_history (snd y))).
Proof. exact vi_reads. Qed.
Print Assumptions C75_vi_reads.

(** Up then offers the lines of the file: it shows the first of them that
    matches what was typed. *)
Theorem C75_emacs_shows : forall E0 pr f ib h w0 cb ttys s0 kk s w E k d y r,
  editor_new E0 pr f ib h w0 cb ttys = ORet tt s0 -> shared_run emacs_core any_key (emacs_new, s0) (kk, s) ->
  shared_file w (ed_history s) r -> ed_fresh s = false -> is_search s = false -> ed_loc s = None -> ed_subloc s = None ->
  In k [KUp; KCtrl (ch "p")] -> handle_key emacs_core E k (kk, set_fs w s) = ORet d y ->
  exists l, fetched (ed_history s) r l /\
    forall L, offered l (data (ed_new s)) L -> let t := nth 0 L (data (ed_new s)) in d = false /\ line_is (snd y) t (length t).
Proof. exact emacs_reads_shows. Qed.
Print Assumptions C75_emacs_shows.

Theorem C75_vi_shows : forall E0 pr f ib h w0 cb ttys s0 E1 x0 v s w E k d y r,
  editor_new E0 pr f ib h w0 cb ttys = ORet tt s0 -> vi_init E1 (vi_new, s0) = ORet tt x0 -> shared_run vi_core any_key x0 (v, s) ->
  shared_file w (ed_history s) r -> ed_fresh s = false -> is_search s = false -> ed_loc s = None -> ed_subloc s = None ->
  (v_stack v = [] /\ In k [KUp; kch "k"]) \/ (v_stack v = [MInsert] /\ k = KUp) -> handle_key vi_core E k (v, set_fs w s) = ORet d y ->
  exists l, fetched (ed_history s) r l /\
    forall L, offered l (data (ed_new s)) L -> let t := nth 0 L (data (ed_new s)) in
      d = false /\ line_is (snd y) t (if is_normal (vmode_of v) then length t - 1 else length t).
Proof. exact vi_reads_shows. Qed.
Print Assumptions C75_vi_shows.

(** The file counts as not read when the line starts, after Enter, and after
    Down on an empty new line. *)
Theorem C75_start : forall E p f ib h w cb ttys s, editor_new E p f ib h w cb ttys = ORet tt s ->
  ed_history s = h /\ ed_fs s = w /\ ed_fresh s = false.
Proof. exact share_new. Qed.
Print Assumptions C75_start.
Theorem C75_enter : forall K (core : env -> key -> MK K unit) E x d y, handle_key core E (KChar c_nl) x = ORet d y -> ed_fresh (snd y) = false.
Proof. exact @enter_again. Qed.
Print Assumptions C75_enter.
Theorem C75_down : forall E k kk s d y, In k [KDown; KCtrl (ch "n")] -> is_search s = false -> data (ed_new s) = [] -> ed_loc s = None ->
  handle_key emacs_core E k (kk, s) = ORet d y -> ed_fresh (snd y) = false.
Proof. exact down_again. Qed.
Print Assumptions C75_down.

(** Another process wrote "ls" and "cd" before the first key.  Up shows "cd";
    it then wrote "xy", but Backspace and Up still see the old lines: "ls".
    After two more Downs, the next Up shows "xy". *)
Example C75_case :
  let h := mkHist [buf_of (str "old")] (Some (str "f")) 10 10 false false true 0 true 0 in
  let w bs := mkFs (fun _ => Some (mkFile bs true true)) (fun _ => true) in
  let w1 := w (enc (str "ls") ++ [10%N] ++ enc (str "cd") ++ [10%N]) in
  let w2 := w (enc (str "ls") ++ [10%N] ++ enc (str "cd") ++ [10%N] ++ enc (str "xy") ++ [10%N]) in
  let go wl (o : out (emacs * ed) bool) := fold_left (fun o '(w, k) => match o with ORet _ (kk, s) => handle_key emacs_core test_env k (kk, set_fs w s) | _ => o end) wl o in
  shared_file w1 h [str "ls"; str "cd"] /\
  match editor_new test_env (mkPrompt (str "$ ") None) None buf_new h (w []) [] [] with
  | ORet _ s =>
    let o := ORet false (emacs_new, s) in
    ed_history s = h /\ ed_fresh s = false /\ is_search s = false /\ ed_loc s = None /\ ed_subloc s = None /\
    seen (go [(w1, KUp)] o) = Some (false, str "cd", 2) /\
    seen (go [(w1, KUp); (w2, KBackspace); (w2, KUp)] o) = Some (false, str "ls", 2) /\
    seen (go [(w1, KUp); (w2, KBackspace); (w2, KUp); (w2, KDown); (w2, KDown); (w2, KUp)] o) = Some (false, str "xy", 2)
  | _ => False
  end.
Proof.
  cbv zeta. split.
  - split; [reflexivity|]. exists (str "f"). eexists. split; [reflexivity|]. split; [eexists; repeat split; reflexivity|].
    split; [apply reads_iff; reflexivity|discriminate].
  - vm_compute. auto 10.
Qed.
Example C75_vi_case :
  let h := mkHist [buf_of (str "old")] (Some (str "f")) 10 10 false false true 0 true 0 in
  let w bs := mkFs (fun _ => Some (mkFile bs true true)) (fun _ => true) in
  let w1 := w (enc (str "ls") ++ [10%N] ++ enc (str "cd") ++ [10%N]) in
  match editor_new test_env (mkPrompt (str "$ ") None) None buf_new h (w []) [] [] with
  | ORet _ s =>
    match vi_init test_env (vi_new, s) with
    | ORet _ (v, s1) =>
      v_stack v = [MInsert] /\ ed_fresh s1 = false /\ is_search s1 = false /\ ed_loc s1 = None /\ ed_subloc s1 = None /\
      match handle_key vi_core test_env KUp (v, set_fs w1 s1) with
      | ORet d (v2, s2) => d = false /\ line_is s2 (str "cd") 2 /\ texts (ed_history s2) = [str "ls"; str "cd"]
      | _ => False
      end
    | _ => False
    end
  | _ => False
  end.
Proof. vm_compute. repeat split. eexists. repeat split. Qed.
