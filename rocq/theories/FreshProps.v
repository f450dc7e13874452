(** The screen is up to date after every key: C82. *)
From Verif Require Import Base Utf8 BufferModel UtilModel HistoryModel EditorState EditorModel KeymapModel ViModel Tests Samples
  ScreenSpec ScreenProofs GridSpec GridProofs FreshSpec FreshProofs.
Local Open Scope monad_scope.

(** ** C82: the screen is up to date after every key

    After a new editor has printed its banner (state [sb]), all that is written
    until the line is finished is whole redraws, and the last of them, [d],
    showed the prompt, line, cursor, suggestion and search the editor now has. *)
Theorem C82_emacs : forall E p f ib h w cb ttys s keys k s',
  editor_new E p f ib h w cb ttys = ORet tt s -> run_keys emacs_core keys (emacs_new, s) = ORet false (k, s') ->
  exists sb n d l, n + 1 = match e_ttywidth E with Some n => n | None => 80 end /\
    ed_tty sb = ttys ++ init_toks n (pr_prompt p) /\ ed_tcl sb = 1 /\ drawn sb (d :: l) s' /\ alike (rd_to d) s'.
Proof. exact emacs_up. Qed.
Print Assumptions C82_emacs.

Theorem C82_vi : forall E E1 p f ib h w cb ttys s keys k s',
  editor_new E p f ib h w cb ttys = ORet tt s -> (vi_init E1 ;;; run_keys vi_core keys) (vi_new, s) = ORet false (k, s') ->
  exists sb n d l, n + 1 = match e_ttywidth E with Some n => n | None => 80 end /\
    ed_tty sb = ttys ++ init_toks n (pr_prompt p) /\ ed_tcl sb = 1 /\ drawn sb (d :: l) s' /\ alike (rd_to d) s'.
Proof. exact vi_up. Qed.
Print Assumptions C82_vi.

(** What such a session leaves on a terminal with the cursor in row [t_row T],
    if every redraw was of narrow characters and without candidates: the rows
    above are as they were; prompt, line and suggestion as they are now stand
    from row [r] on and nothing else; the cursor is where the editor's cursor
    is.  [r] is the row the session began in, unless Ctrl-l was pressed. *)
Theorem C82_screen : forall W cw sb d l s, drawn sb (d :: l) s -> alike (rd_to d) s -> Forall (plain W cw) (d :: l) -> ed_tcl sb = 1 ->
  exists toks prompt n pv t, ed_tty s = ed_tty sb ++ toks /\
  search_prompt (e_uni (rd_env d)) s = Val (prompt, n) /\ styled (narrow cw) prompt pv /\ on_screen s t /\
  forall T g, t_st T = Ground ->
    let T' := shows W cw T toks in let g' := paints W cw T g (render_toks toks) in
    (forall i j, i < t_row T -> g' i j = g i j) /\
    exists r L e, t_row T <= r /\ (Forall (fun d => rd_clear d = false) (d :: l) -> r = t_row T) /\
      laid W (length pv) (r, 0) (pv ++ t) L e /\ (forall i j c, r <= i -> (g' i j = Some c <-> In (i, j, c) L)) /\
      (is_search s = false -> exists L1, laid W (length pv) (r, 0) (pv ++ firstn (ed_cursor s) t) L1 (t_row T', t_col T')).
Proof. exact drawn_screen. Qed.
Print Assumptions C82_screen.

(** Ten columns; the line "echo abcdefg" of two rows is given and Ctrl-u
    pressed: three redraws, two of them of the new editor. *)
Example C82_case :
  let E := mkEnv ascii_uni (Some 10) true (Some 10) get_buffer_words (fun _ => []) in
  let new := editor_new E (mkPrompt (str "$ ") None) None (buf_of (str "echo abcdefg")) (hist_of []) no_fs [] [] in
  let s := match new with ORet _ x => x | _ => blank_ed end in
  let s' := match run_keys emacs_core [(E, KCtrl (ch "u"))] (emacs_new, s) with ORet _ (_, x) => x | _ => blank_ed end in
  let draw s := match display E s with ORet _ x => x | _ => blank_ed end in
  let sb := set_tty (init_toks 9 (str "$ ")) (set_new (buf_of (str "echo abcdefg")) (set_prompt (mkPrompt (str "$ ") None) blank_ed)) in
  let a1 := set_cursor 12 sb in let a2 := draw a1 in let a3 := draw a2 in
  let a4 := set_cursor 0 (set_new (ed_new s') (set_changed (ed_changed s') a3)) in let a5 := draw a4 in
  let l := [mkRedraw E false a4 a5; mkRedraw E false a2 a3; mkRedraw E false a1 a2] in
  let T := mkTerm 5 0 [] Ground in
  let g' := paints 10 (fun _ => 1) T (fun _ _ => Some (ch "#")) (render_toks (skipn (length (ed_tty sb)) (ed_tty s'))) in
  new = ORet tt s /\ run_keys emacs_core [(E, KCtrl (ch "u"))] (emacs_new, s) = ORet false (emacs_new, s') /\
  ed_tcl sb = 1 /\ drawn sb l s' /\ alike a5 s' /\ Forall (plain 10 (fun _ => 1)) l /\ ed_tcl a4 = 2 /\
  map (g' 4) (seq 0 2) = map Some (str "##") /\ map (g' 5) (seq 0 5) = map Some (str "$ ") ++ [None; None; None] /\ map (g' 6) (seq 0 2) = [None; None].
Proof.
  intros E new s s' draw sb a1 a2 a3 a4 a5 l T g'.
  split; [vm_compute; reflexivity|]. split; [vm_compute; reflexivity|]. split; [reflexivity|].
  split.
  { unfold l. apply (drawn_more sb _ E false a3 a4 a5 s'); [apply (drawn_more sb _ E false a2 a2 a3 a3); [apply (drawn_more sb _ E false sb a1 a2 a2); [apply drawn_start; reflexivity| | | | |]| | | | |]| | | | |].
    all: vm_compute; reflexivity. }
  split; [vm_compute; repeat split; intros b Hb; exists b; split; [exact Hb|reflexivity]|].
  split; [|vm_compute; repeat split].
  assert (Hd : forall d t, terminal_width (e_size (rd_env d)) = Some 10 -> e_uni (rd_env d) = ascii_uni ->
     search_prompt ascii_uni (rd_to d) = Val (str "$ ", 0) -> on_screen (rd_to d) t -> ed_closure (rd_to d) = None -> ed_hint (rd_to d) = None ->
     (N.of_nat (ed_tcl (rd_from d)) < 65536)%N -> Forall (narrow (fun _ => 1)) t -> (N.of_nat (endn 10 2 0 (str "$ " ++ t) / 10) < 65536)%N ->
     plain 10 (fun _ => 1) d).
  { intros d t H1 H2 H3 H4 H5 H6 H7 H8 H9. exists (str "$ "), 0, (str "$ "), t. rewrite H2. repeat (split; [assumption|]). split; [|split; assumption].
    assert (Hnl : ~ In c_nl t).
    { intro K. rewrite Forall_forall in H8. specialize (H8 _ K). destruct H8 as [H8 _]. vm_compute in H8. try discriminate; try tauto. }
    constructor.
    - intros x _. apply ascii_measure.
    - apply styled_id. vm_compute. narrow_concrete.
    - rewrite Forall_forall in *. intros c Hc. right. apply H8. exact Hc.
    - intros f x H. congruence.
    - intros comps i H. congruence.
    - intro K. contradiction.
    - discriminate.
    - apply rows_bound; [repeat constructor|intros _; vm_compute; repeat constructor|exact H9].
    - reflexivity. }
  unfold l. repeat apply Forall_cons; try apply Forall_nil.
  - apply (Hd _ []); try (vm_compute; reflexivity); [vm_compute; eexists; split; reflexivity|constructor].
  - apply (Hd _ (str "echo abcdefg")); try (vm_compute; reflexivity); [vm_compute; eexists; split; reflexivity|vm_compute; narrow_concrete].
  - apply (Hd _ (str "echo abcdefg")); try (vm_compute; reflexivity); [vm_compute; eexists; split; reflexivity|vm_compute; narrow_concrete].
Qed.

(** Ctrl-l writes the sequence that clears the screen to the context's own
    buffer and not to the terminal: with the cursor in the second row, the first
    row of the line stays where it was and the line is drawn again below. *)
Theorem C82_clear_refuted : exists E s s', e_uni E = ascii_uni /\
  s = final (emacs_run E [] (keys (str "echo abcdefg"))) blank_ed /\
  s' = final (emacs_run E [] (keys (str "echo abcdefg") ++ [KCtrl (ch "l")])) blank_ed /\
  forall g,
  let screen_of s := paints 10 (fun _ => 1) (mkTerm 5 0 [] Ground) g (render_toks (ed_tty s)) in
  map (screen_of s 5) (seq 0 10) = map Some (str "$ echo abc") /\ map (screen_of s 6) (seq 0 4) = map Some (str "defg") /\
  map (screen_of s' 5) (seq 0 10) = map Some (str "$ echo abc") /\ map (screen_of s' 6) (seq 0 10) = map Some (str "$ echo abc") /\
  map (screen_of s' 7) (seq 0 4) = map Some (str "defg").
Proof.
  exists (mkEnv ascii_uni (Some 10) true (Some 10) get_buffer_words (fun _ => [])).
  do 2 eexists. split; [reflexivity|]. do 2 (split; [reflexivity|]). intros g screen_of. unfold screen_of. vm_compute. repeat split.
Qed.
Print Assumptions C82_clear_refuted.
