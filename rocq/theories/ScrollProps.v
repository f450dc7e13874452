(** A session on a terminal that scrolls: C84. *)
From Verif Require Import Base Utf8 BufferModel UtilModel HistoryModel EditorState EditorModel KeymapModel ViModel Tests Samples
  ScreenSpec ScreenProofs GridSpec GridProofs FreshSpec FreshProofs ScrollSpec ScrollProofs.
Local Open Scope monad_scope.

(** ** C84: a session on a terminal that scrolls

    A session as in C82, on a terminal of [Ht] rows, every redraw of which fits
    on the screen: [o] rows have been scrolled off the top.  Above the prompt the
    rows show what was there before; prompt, line and suggestion stand in full
    from row [r] on and nothing else; the cursor is where the editor's is.  The
    prompt has moved up by just the [o] rows, unless Ctrl-l was pressed. *)
Theorem C84_partial : forall W Ht cw sb d l s, drawn sb (d :: l) s -> alike (rd_to d) s -> Forall (plain W cw) (d :: l) -> Forall (fits W Ht cw) (d :: l) -> ed_tcl sb = 1 ->
  exists toks prompt n pv t, ed_tty s = ed_tty sb ++ toks /\
  search_prompt (e_uni (rd_env d)) s = Val (prompt, n) /\ styled (narrow cw) prompt pv /\ on_screen s t /\
  forall F, f_st F = Ground -> f_row F < Ht ->
    let F' := fshows W Ht cw F toks in
    exists o r L e, (forall i j, i < r -> o + i < f_row F -> f_screen F' i j = f_screen F (o + i) j) /\
      f_row F <= o + r /\ (Forall (fun d => rd_clear d = false) (d :: l) -> o + r = f_row F) /\
      laid W (length pv) (r, 0) (pv ++ t) L e /\
      (forall i j c, r <= i -> (i < Ht /\ f_screen F' i j = Some c <-> In (i, j, c) L)) /\
      (is_search s = false -> exists L1, laid W (length pv) (r, 0) (pv ++ firstn (ed_cursor s) t) L1 (f_row F', f_col F')).
Proof. exact drawn_scrolled. Qed.
Print Assumptions C84_partial.

(** Ten columns and three rows, the prompt in the last one: the line
    "echo abcdefg" needs two rows, so everything moves up by one; Ctrl-u clears
    the line and leaves the prompt in the middle row. *)
Example C84_case :
  let E := mkEnv ascii_uni (Some 10) true (Some 10) get_buffer_words (fun _ => []) in
  let new := editor_new E (mkPrompt (str "$ ") None) None (buf_of (str "echo abcdefg")) (hist_of []) no_fs [] [] in
  let s := match new with ORet _ x => x | _ => blank_ed end in
  let s' := match run_keys emacs_core [(E, KCtrl (ch "u"))] (emacs_new, s) with ORet _ (_, x) => x | _ => blank_ed end in
  let draw s := match display E s with ORet _ x => x | _ => blank_ed end in
  let sb := set_tty (init_toks 9 (str "$ ")) (set_new (buf_of (str "echo abcdefg")) (set_prompt (mkPrompt (str "$ ") None) blank_ed)) in
  let a1 := set_cursor 12 sb in let a2 := draw a1 in let a3 := draw a2 in
  let a4 := set_cursor 0 (set_new (ed_new s') (set_changed (ed_changed s') a3)) in let a5 := draw a4 in
  let l := [mkRedraw E false a4 a5; mkRedraw E false a2 a3; mkRedraw E false a1 a2] in
  let F := mkF 2 0 (fun _ _ => Some (ch "#")) Ground in
  let F1 := fshows 10 3 (fun _ => 1) F (skipn (length (ed_tty sb)) (ed_tty a3)) in
  let F' := fshows 10 3 (fun _ => 1) F (skipn (length (ed_tty sb)) (ed_tty s')) in
  new = ORet tt s /\ run_keys emacs_core [(E, KCtrl (ch "u"))] (emacs_new, s) = ORet false (emacs_new, s') /\
  ed_tcl sb = 1 /\ drawn sb l s' /\ alike a5 s' /\ Forall (plain 10 (fun _ => 1)) l /\ Forall (fits 10 3 (fun _ => 1)) l /\
  map (f_screen F1 0) (seq 0 3) = map Some (str "###") /\ map (f_screen F1 1) (seq 0 10) = map Some (str "$ echo abc") /\
  map (f_screen F1 2) (seq 0 5) = map Some (str "defg") ++ [None] /\ f_row F1 = 2 /\ f_col F1 = 4 /\
  map (f_screen F' 0) (seq 0 3) = map Some (str "###") /\ map (f_screen F' 1) (seq 0 4) = map Some (str "$ ") ++ [None; None] /\
  map (f_screen F' 2) (seq 0 2) = [None; None] /\ f_row F' = 1 /\ f_col F' = 2.
Proof.
  intros E new s s' draw sb a1 a2 a3 a4 a5 l F F1 F'.
  split; [vm_compute; reflexivity|]. split; [vm_compute; reflexivity|]. split; [reflexivity|].
  split.
  { unfold l. apply (drawn_more sb _ E false a3 a4 a5 s'); [apply (drawn_more sb _ E false a2 a2 a3 a3); [apply (drawn_more sb _ E false sb a1 a2 a2); [apply drawn_start; reflexivity| | | | |]| | | | |]| | | | |].
    all: vm_compute; reflexivity. }
  split; [vm_compute; repeat split; intros b Hb; exists b; split; [exact Hb|reflexivity]|].
  split; [|split; [|vm_compute; repeat split]].
  2: { assert (Hf : forall d t0, search_prompt ascii_uni (rd_to d) = Val (str "$ ", 0) -> e_uni (rd_env d) = ascii_uni -> on_screen (rd_to d) t0 ->
         (forall t1, on_screen (rd_to d) t1 -> t1 = t0) -> endn 10 2 0 (str "$ " ++ t0) / 10 < 3 -> fits 10 3 (fun _ => 1) d).
       { intros d t0 H1 H2 H3 H4 H5 prompt n pv t L e A1 A2 A3 A4. rewrite H2, H1 in A1. injection A1 as <- <-.
         rewrite (H4 _ A3) in A4. assert (Epv : pv = str "$ ").
         { apply (styled_plain _ _ _ A2). vm_compute. intuition discriminate. }
         subst pv. pose proof (laid_cells 10 (Nat.lt_0_succ 9) 0 2 (str "$ " ++ t0) 0) as K.
         destruct (laid_unique _ _ _ _ _ _ A4 _ _ (K ltac:(intro; repeat constructor))) as [_ ->]. exact H5. }
       unfold l. repeat apply Forall_cons; try apply Forall_nil.
       - apply (Hf _ []); try (vm_compute; reflexivity); [vm_compute; eexists; split; reflexivity|intros t1 K; vm_compute in K; destruct K as [b [Hb ->]]; injection Hb as <-; reflexivity|vm_compute; repeat constructor].
       - apply (Hf _ (str "echo abcdefg")); try (vm_compute; reflexivity); [vm_compute; eexists; split; reflexivity|intros t1 K; vm_compute in K; destruct K as [b [Hb ->]]; injection Hb as <-; reflexivity|vm_compute; repeat constructor].
       - apply (Hf _ (str "echo abcdefg")); try (vm_compute; reflexivity); [vm_compute; eexists; split; reflexivity|intros t1 K; vm_compute in K; destruct K as [b [Hb ->]]; injection Hb as <-; reflexivity|vm_compute; repeat constructor]. }
  assert (Hd : forall d t, terminal_width (e_size (rd_env d)) = Some 10 -> e_uni (rd_env d) = ascii_uni ->
     search_prompt ascii_uni (rd_to d) = Val (str "$ ", 0) -> on_screen (rd_to d) t -> ed_closure (rd_to d) = None -> ed_hint (rd_to d) = None ->
     (N.of_nat (ed_tcl (rd_from d)) < 65536)%N -> Forall (narrow (fun _ => 1)) t -> (N.of_nat (endn 10 2 0 (str "$ " ++ t) / 10) < 65536)%N ->
     plain 10 (fun _ => 1) d).
  { intros d t H1 H2 H3 H4 H5 H6 H7 H8 H9. exists (str "$ "), 0, (str "$ "), t. rewrite H2. repeat (split; [assumption|]). split; [|split; assumption].
    assert (Hnl : ~ In c_nl t).
    { intro K. rewrite Forall_forall in H8. specialize (H8 _ K). destruct H8 as [H8 _]. vm_compute in H8. try discriminate; try tauto. }
    constructor.
    - intros x _. apply ascii_measure.
    - apply styled_id. vm_compute. narrow_concrete.
    - rewrite Forall_forall in *. intros c Hc. right. apply H8. exact Hc.
    - intros f x H. congruence.
    - intros comps i H. congruence.
    - intro K. contradiction.
    - discriminate.
    - apply rows_bound; [repeat constructor|intros _; vm_compute; repeat constructor|exact H9].
    - reflexivity. }
  unfold l. repeat apply Forall_cons; try apply Forall_nil.
  - apply (Hd _ []); try (vm_compute; reflexivity); [vm_compute; eexists; split; reflexivity|constructor].
  - apply (Hd _ (str "echo abcdefg")); try (vm_compute; reflexivity); [vm_compute; eexists; split; reflexivity|vm_compute; narrow_concrete].
  - apply (Hd _ (str "echo abcdefg")); try (vm_compute; reflexivity); [vm_compute; eexists; split; reflexivity|vm_compute; narrow_concrete].
Qed.


(** Without [fits] it is not so.  On two rows the line "echo abcde..." of three
    rows is typed and Ctrl-a pressed: the editor's cursor is on the "e" of
    "echo", which has been scrolled away, and the terminal's on the "f". *)
Theorem C84_refuted : exists E s b, e_uni E = ascii_uni /\
  s = final (emacs_run E [] (keys (str "echo abcdefghijklmnopqrstu") ++ [KCtrl (ch "a")])) blank_ed /\
  cur_buf s = Val b /\ nth_error (data b) (ed_cursor s) = Some (ch "e") /\
  forall g, let F := fshows 10 2 (fun _ => 1) (mkF 1 0 g Ground) (ed_tty s) in
  f_screen F (f_row F) (f_col F) = Some (ch "f").
Proof.
  exists (mkEnv ascii_uni (Some 10) true (Some 10) get_buffer_words (fun _ => [])).
  do 2 eexists. split; [reflexivity|]. split; [reflexivity|]. split; [vm_compute; reflexivity|]. split; [vm_compute; reflexivity|]. intro g. vm_compute. reflexivity.
Qed.
Print Assumptions C84_refuted.
