(** Sessions that cannot panic: C25, and C28 for them. *)
From Verif Require Import Base Utf8 BufferModel UtilModel UtilSpec UtilProofs HistoryModel HistorySpec EditorState EditorModel
  KeymapModel ViModel Tests Samples EmacsProofs SafeSpec SafeEmacs InterruptProofs.
Local Open Scope monad_scope.

(** ** C25: Emacs sessions never panic

    Missing from the full claim: the statement holds for sessions over
    single-byte text, or over text without newline and backslash; with the
    incremental search, for single-byte text without newline, backslash and
    escape characters and a prompt without a Vi status.  The history must not
    be shared between processes and the terminal must not report width 0.
    Then the only possible panic is the wrap of a 16-bit line count, for a
    line of at least 65536 rows.  The refutations below show that each of
    these limits is needed. *)
Theorem C25_partial : forall ascii flat srch, fits ascii flat srch ->
  forall E p f ib h w cb ttys keys q,
  ok_env ascii flat srch E ->
  Forall (fun ek => ok_env ascii flat srch (fst ek) /\ ok_key ascii flat srch (snd ek)) keys ->
  h_share h = false -> Forall (ok_text ascii flat srch) (texts h) -> ok_text ascii flat srch (data ib) ->
  actions ib = [] -> undone ib = [] -> e_ttywidth E <> Some 0 ->
  (srch = true -> pr_vi p = None) ->
  emacs_read_line E p f ib h w cb ttys keys = OPanic q -> q = PU16.
Proof. exact emacs_session_safe. Qed.
Print Assumptions C25_partial.

(** The default words, no candidates and one column per character satisfy the
    conditions on the surroundings in every configuration. *)
Example C25_env_case : forall ascii flat srch, ok_env ascii flat srch test_env.
Proof.
  intros ascii flat srch. split; [|split].
  - split; [intros a b; cbn; rewrite app_length; lia|]. intros _. split; [reflexivity|]. split; [reflexivity|].
    intros a b _. cbn. apply app_length.
  - intro t. split; [apply default_increasing|]. intros s e Hin.
    destruct (get_buffer_words_ok t) as [Hall _]. rewrite Forall_forall in Hall. apply (Hall _ Hin).
  - intros w _. constructor.
Qed.

(** Sessions of all three kinds: a continued line; accented text with a
    suggestion; a search. *)
Example C25_lines_case :
  let ks := keys (str "echo a" ++ [c_bs; c_nl] ++ str "b") ++ [KUp; KDown; KAlt (ch "."); KChar c_tab; KChar c_nl] in
  fits true false false /\ Forall (ok_key true false false) ks /\
  Forall (ok_text true false false) [str "echo a" ++ [c_bs; c_nl] ++ str "c"] /\
  seen (emacs_run test_env [str "echo a" ++ [c_bs; c_nl] ++ str "c"] ks) =
    Some (true, str "echo a" ++ [c_bs; c_nl] ++ str "ba" ++ [c_bs; c_nl] ++ str "c", 13).
Proof.
  intro ks. split; [split; [left; reflexivity|discriminate]|].
  split; [unfold ks; vm_compute; repeat (constructor; [first [exact I | left; reflexivity | right; split; discriminate
    | right; left; reflexivity | right; right; repeat split; intros; discriminate || auto]|]); constructor|].
  split; [constructor; [|constructor]; vm_compute; repeat (constructor; [repeat split; intros; try discriminate; auto|]); constructor|].
  vm_compute. reflexivity.
Qed.

Example C25_flat_case :
  let e := 233%N in
  let ks := keys [ch "c"; e] ++ [KEnd; KRight; KAlt (ch "b"); KUp; KCtrl (ch "w"); KChar c_nl] in
  fits false true false /\ Forall (ok_key false true false) ks /\
  Forall (ok_text false true false) [[ch "c"; e; c_sp; e; e]] /\
  seen (emacs_run test_env [[ch "c"; e; c_sp; e; e]] ks) = Some (true, [ch "c"; e; c_sp], 3).
Proof.
  intros e ks. split; [split; [right; reflexivity|discriminate]|].
  split; [unfold ks; vm_compute; repeat (constructor; [first [exact I | left; reflexivity | right; split; discriminate
    | right; left; reflexivity | right; right; repeat split; intros; discriminate || auto]|]); constructor|].
  split; [constructor; [|constructor]; vm_compute; repeat (constructor; [repeat split; intros; try discriminate; auto|]); constructor|].
  vm_compute. reflexivity.
Qed.

Example C25_search_case :
  let ks := KCtrl (ch "r") :: keys (str "ec") ++ [KUp; KCtrl (ch "s"); KBackspace; KChar c_nl] in
  fits true true true /\ Forall (ok_key true true true) ks /\
  Forall (ok_text true true true) [str "echo"; str "dec"; str "ls"] /\
  seen (emacs_run test_env [str "echo"; str "dec"; str "ls"] ks) = Some (true, str "dec", 3).
Proof.
  intro ks. split; [split; [left; reflexivity|auto]|].
  split; [unfold ks; vm_compute; repeat (constructor; [first [exact I | left; reflexivity | right; split; discriminate
    | right; left; reflexivity | right; right; repeat split; intros; discriminate || auto]|]); constructor|].
  split; [repeat (constructor; [vm_compute; repeat (constructor; [repeat split; intros; try discriminate; auto|]); constructor|]); constructor|].
  vm_compute. reflexivity.
Qed.

(** The full claim is false.  Searching for "a" when the history holds an
    entry "éa" cuts that entry inside a character. *)
Theorem C25_search_refuted : exists h ks, h_share h = false /\
  Forall (ok_text false true false) (texts h) /\ Forall (fun ek => fst ek = test_env) ks /\
  emacs_read_line test_env (mkPrompt (str "$ ") None) None buf_new h no_fs [] [] ks = OPanic PBoundary.
Proof.
  exists (hist_of [[233%N; ch "a"]]), (map (pair test_env) (KCtrl (ch "r") :: keys (str "a"))).
  split; [reflexivity|].
  split; [constructor; [|constructor]; vm_compute; repeat (constructor; [repeat split; intros; try discriminate; auto|]); constructor|].
  split; [repeat (constructor; [reflexivity|]); constructor|]. vm_compute. reflexivity.
Qed.
Print Assumptions C25_search_refuted.

(** A suggestion of several lines with an accented character is cut inside
    that character, as the newlines are counted in one place only. *)
Theorem C25_lines_refuted : exists h ks, h_share h = false /\
  Forall (fun ek => fst ek = test_env /\ ok_key false false false (snd ek)) ks /\
  emacs_read_line test_env (mkPrompt (str "$ ") None) None buf_new h no_fs [] [] ks = OPanic PBoundary.
Proof.
  exists (hist_of [[ch "a"; c_bs; c_nl; 233%N]]), (map (pair test_env) (keys [ch "a"; c_bs; c_nl])).
  split; [reflexivity|].
  split; [repeat (constructor; [split; [reflexivity|right; right; repeat split; discriminate]|]); constructor|].
  vm_compute. reflexivity.
Qed.
Print Assumptions C25_lines_refuted.

(** A shared history that has become shorter in its file: after walking down
    from the oldest entry, Up reads the file again and keeps its place, which
    no longer exists. *)
Theorem C25_shared_refuted : exists h w ks,
  Forall (ok_text true true true) (texts h) /\ Forall (fun ek => fst ek = test_env) ks /\
  emacs_read_line test_env (mkPrompt (str "$ ") None) None buf_new h w [] [] ks = OPanic PIndex.
Proof.
  exists (mkHist (map buf_of [str "a"; str "b"; str "c"]) (Some (str "f")) 100 100 false true true 6 false 0),
    (fs_put no_fs (str "f") (mkFile (enc (str "c" ++ [c_nl])) true true)),
    (map (pair test_env) [KAlt (ch "<"); KDown; KDown; KUp]).
  split; [repeat (constructor; [vm_compute; repeat (constructor; [repeat split; intros; try discriminate; auto|]); constructor|]); constructor|].
  split; [repeat (constructor; [reflexivity|]); constructor|]. vm_compute. reflexivity.
Qed.
Print Assumptions C25_shared_refuted.

(** The 16-bit wrap: one entry of 65533 letters on a terminal one column
    wide fills 65536 rows with the prompt; the redraw after that panics. *)
Theorem C25_rows_refuted : exists E h ks, e_uni E = ascii_uni /\ h_share h = false /\ e_size E = Some 1 /\ e_ttywidth E = Some 1 /\
  Forall (fun ek => fst ek = E) ks /\
  emacs_read_line E (mkPrompt (str "$ ") None) None buf_new h no_fs [] [] ks = OPanic PU16.
Proof.
  exists (mkEnv ascii_uni (Some 1) true (Some 1) get_buffer_words (fun _ => [])), (hist_of [repeat (ch "a") (Nat.pow 2 16 - 3)]),
    (map (pair (mkEnv ascii_uni (Some 1) true (Some 1) get_buffer_words (fun _ => []))) [KUp; KLeft]).
  split; [reflexivity|]. split; [vm_compute; reflexivity|]. do 2 (split; [reflexivity|]).
  split; [repeat (constructor; [reflexivity|]); constructor|]. vm_compute. reflexivity.
Qed.
Print Assumptions C25_rows_refuted.

(** A terminal that reports width 0 stops the editor before the first key. *)
Theorem C25_width_refuted : exists E, e_uni E = ascii_uni /\ e_ttywidth E = Some 0 /\
  emacs_read_line E (mkPrompt (str "$ ") None) None buf_new (hist_of []) no_fs [] [] [] = OPanic PSub.
Proof.
  exists (mkEnv ascii_uni (Some 80) true (Some 0) get_buffer_words (fun _ => [])).
  do 2 (split; [reflexivity|]). vm_compute. reflexivity.
Qed.
Print Assumptions C25_width_refuted.

(** ** C28: Ctrl-C and Ctrl-D close every session that meets the conditions of C25 *)
Theorem C28_emacs_partial : forall ascii flat srch, fits ascii flat srch ->
  forall E p f ib h w cb ttys s l d k s' E',
  ok_env ascii flat srch E ->
  Forall (fun ek => ok_env ascii flat srch (fst ek) /\ ok_key ascii flat srch (snd ek)) l ->
  h_share h = false -> Forall (ok_text ascii flat srch) (texts h) ->
  ok_text ascii flat srch (data ib) -> actions ib = [] -> undone ib = [] ->
  e_ttywidth E <> Some 0 -> (srch = true -> pr_vi p = None) ->
  editor_new E p f ib h w cb ttys = ORet tt s ->
  run_keys emacs_core l (emacs_new, s) = ORet d (k, s') -> ok_env ascii flat srch E' ->
  ends E' EInterrupted (handle_key emacs_core E' (KCtrl (ch "c")) (k, s')) /\
  ((forall b, cur_buf s' = Val b -> data b = []) ->
   ends E' EUnexpectedEof (handle_key emacs_core E' (KCtrl (ch "d")) (k, s'))).
Proof. exact emacs_interrupt. Qed.
Print Assumptions C28_emacs_partial.

Example C28_emacs_case : exists s k s' k2 s2,
  sample_new test_env [str "one"; str "two"] = ORet tt s /\
  run_keys emacs_core (map (pair test_env) [KUp; KUp; KCtrl (ch "r"); kch "o"]) (emacs_new, s) = ORet false (k, s') /\
  (exists y, handle_key emacs_core test_env (KCtrl (ch "c")) (k, s') = OErr EInterrupted y) /\
  run_keys emacs_core (map (pair test_env) [kch "a"; KBackspace]) (emacs_new, s) = ORet false (k2, s2) /\
  (exists y, handle_key emacs_core test_env (KCtrl (ch "d")) (k2, s2) = OErr EUnexpectedEof y).
Proof.
  do 5 eexists. split; [vm_compute; reflexivity|]. split; [vm_compute; reflexivity|].
  split; [eexists; vm_compute; reflexivity|]. split; [vm_compute; reflexivity|]. eexists. vm_compute. reflexivity.
Qed.

(** The two other outcomes occur: Ctrl-C panics on 65536 rows, and on a
    terminal that has gone away it gives that error. *)
Theorem C28_rows_refuted : exists E h, e_uni E = ascii_uni /\ h_share h = false /\
  emacs_read_line E (mkPrompt (str "$ ") None) None buf_new h no_fs [] [] (map (pair E) [KUp; KCtrl (ch "c")]) = OPanic PU16.
Proof.
  exists (mkEnv ascii_uni (Some 1) true (Some 1) get_buffer_words (fun _ => [])), (hist_of [repeat (ch "a") (Nat.pow 2 16 - 3)]).
  split; [reflexivity|]. split; [vm_compute; reflexivity|]. vm_compute. reflexivity.
Qed.
Print Assumptions C28_rows_refuted.

Theorem C28_terminal_refuted : exists E s y, e_uni E = ascii_uni /\ sample_new test_env [] = ORet tt s /\
  handle_key emacs_core E (KCtrl (ch "c")) (emacs_new, s) = OErr EOther y.
Proof.
  exists (mkEnv ascii_uni (Some 80) false (Some 80) get_buffer_words (fun _ => [])). do 2 eexists.
  split; [reflexivity|]. split; [vm_compute; reflexivity|]. vm_compute. reflexivity.
Qed.
Print Assumptions C28_terminal_refuted.
