(** What is on the screen after a redraw: C80 and C81. *)
From Verif Require Import Base Utf8 BufferModel UtilModel HistoryModel EditorState EditorModel KeymapModel Tests Samples
  ScreenSpec ScreenProofs GridSpec GridProofs.
Local Open Scope monad_scope.

(** ** C80: a redraw leaves nothing of the line before on the screen

    [drawable] as for C42.  Whatever the screen showed, from the row of the
    prompt on it shows prompt, line and suggestion and otherwise blank cells; the
    rows above are as they were.  The prompt stays in the row the redraw before
    it began in, as the last conclusion states for the next one. *)
Theorem C80_exact : forall W cw E s u s' prompt n pv t,
  display E s = ORet u s' -> terminal_width (e_size E) = Some W ->
  search_prompt (e_uni E) s' = Val (prompt, n) -> on_screen s' t -> drawable W cw (e_uni E) prompt pv t s' ->
  ed_hint s' = None -> (N.of_nat (ed_tcl s) < 65536)%N ->
  exists toks, ed_tty s' = ed_tty s ++ toks /\
  forall T g, t_st T = Ground -> 
    let r := t_row T - (ed_tcl s - 1) in
    exists L e, laid W (length pv) (r, 0) (pv ++ t) L e /\
      exactly r L g (paints W cw T g (render_toks toks)) /\
      t_st (shows W cw T toks) = Ground /\ t_row (shows W cw T toks) = r + (ed_tcl s' - 1).
Proof. exact redraw_exact. Qed.
Print Assumptions C80_exact.

(** ** C81: a list of candidates does not move the prompt

    The list is drawn from the row on in which the redraw before it began, in
    columns; prompt and line follow below it, and nothing else is on the screen
    from there on.  Candidates take at most half of the screen's columns.

    Missing from the full claim: the next redraw begins in the same row only
    if the last row of the list is not full.  Otherwise it begins one row
    higher. *)
Theorem C81_partial : forall W cw E s u s' prompt n pv t comps hl m,
  display E s = ORet u s' -> e_size E = Some W -> 4 <= W ->
  search_prompt (e_uni E) s' = Val (prompt, n) -> on_screen s' t -> drawable W cw (e_uni E) prompt pv t s' ->
  ed_hint s' = Some (comps, hl) -> Forall (Forall (narrow cw)) comps -> narrow cw c_sp -> longest comps m -> 0 < m -> 2 * m <= W ->
  (N.of_nat (ed_tcl s) < 65536)%N ->
  let wd := 2 + W / (W / m) in let cols := W / wd in let rows := (length comps + cols - 1) / cols in
  exists toks, ed_tty s' = ed_tty s ++ toks /\
  forall T g, t_st T = Ground -> 
    let r := t_row T - (ed_tcl s - 1) in
    exists L e, laid W (length pv) (r + rows, 0) (pv ++ t) L e /\
      exactly r (listed cols wd r 0 comps ++ L) g (paints W cw T g (render_toks toks)) /\
      t_st (shows W cw T toks) = Ground /\
      t_row (shows W cw T toks) - (ed_tcl s' - 1) = (if length comps mod cols =? 0 then r - 1 else r).
Proof. exact redraw_listed. Qed.
Print Assumptions C81_partial.

(** Ten columns; a line of two rows is cut down to "echo" by Ctrl-k.  The
    redraw begins in row 5 again; of "abcdefg" nothing is left. *)
Example C80_case :
  let E := mkEnv ascii_uni (Some 10) true (Some 10) get_buffer_words (fun _ => []) in
  let s := final (emacs_run E [] (keys (str "echo abcdefg"))) blank_ed in
  let s1 := set_cursor 4 (set_new (buf_of (str "echo")) s) in
  let s' := match display E s1 with ORet _ x => x | _ => blank_ed end in
  let T := shows 10 (fun _ => 1) (mkTerm 5 0 [] Ground) (ed_tty s) in
  let g := paints 10 (fun _ => 1) (mkTerm 5 0 [] Ground) (fun _ _ => None) (render_toks (ed_tty s)) in
  let g' := paints 10 (fun _ => 1) T g (render_toks (skipn (length (ed_tty s)) (ed_tty s'))) in
  display E s1 = ORet tt s' /\ terminal_width (e_size E) = Some 10 /\
  search_prompt (e_uni E) s' = Val (pr_string (ed_prompt s'), 0) /\ on_screen s' (str "echo") /\
  drawable 10 (fun _ => 1) (e_uni E) (pr_string (ed_prompt s')) (str "$ ") (str "echo") s' /\ ed_hint s' = None /\
  ed_tcl s1 = 2 /\ t_row T = 6 /\
  map (g 5) (seq 0 10) = map Some (str "$ echo abc") /\ map (g 6) (seq 0 5) = map Some (str "defg") ++ [None] /\
  map (g' 5) (seq 0 10) = map Some (str "$ echo") ++ repeat None 4 /\ map (g' 6) (seq 0 5) = repeat None 5.
Proof.
  intros E s s1 s' T g g'. do 3 (split; [vm_compute; reflexivity|]). split; [vm_compute; eexists; split; reflexivity|].
  split; [|vm_compute; repeat split].
  constructor.
  - intros x _. apply ascii_measure.
  - replace (pr_string (ed_prompt s')) with (str "$ ") by (vm_compute; reflexivity). apply styled_id. vm_compute. narrow_concrete.
  - vm_compute. narrow_concrete.
  - intros f x H. vm_compute in H. discriminate H.
  - intros comps i H. vm_compute in H. discriminate H.
  - intros _. vm_compute. repeat constructor.
  - discriminate.
  - apply rows_bound; [repeat constructor|intros _; vm_compute; repeat constructor|vm_compute; reflexivity].
  - reflexivity.
Qed.

(** Twenty columns, four candidates of at most four letters: three columns
    and two rows, the prompt below them. *)
Example C81_case :
  let E := mkEnv ascii_uni (Some 20) true (Some 20) get_buffer_words (fun _ => [str "abcd"; str "abd"; str "abe"; str "abf"]) in
  let s := final (emacs_run E [] (keys (str "ab"))) blank_ed in
  let s1 := set_hint (Some ([str "abcd"; str "abd"; str "abe"; str "abf"], None)) s in
  let s' := match display E s1 with ORet _ x => x | _ => blank_ed end in
  let T := shows 20 (fun _ => 1) (mkTerm 5 0 [] Ground) (ed_tty s) in
  let g := paints 20 (fun _ => 1) T (fun _ _ => None) (render_toks (skipn (length (ed_tty s)) (ed_tty s'))) in
  display E s1 = ORet tt s' /\ e_size E = Some 20 /\
  ed_hint (final (emacs_run E [] (keys (str "ab") ++ [KChar c_tab])) blank_ed) = ed_hint s1 /\
  search_prompt (e_uni E) s' = Val (pr_string (ed_prompt s'), 0) /\ on_screen s' (str "ab") /\
  drawable 20 (fun _ => 1) (e_uni E) (pr_string (ed_prompt s')) (str "$ ") (str "ab") s' /\
  longest [str "abcd"; str "abd"; str "abe"; str "abf"] 4 /\
  (t_row T = 5 /\ map (g 5) (seq 0 20) = map Some (str "abcd  abd   abe   ") ++ [None; None] /\
   map (g 6) (seq 0 7) = map Some (str "abf   ") ++ [None] /\ map (g 7) (seq 0 5) = map Some (str "$ ab") ++ [None]).
Proof.
  intros E s s1 s' T g. do 4 (split; [vm_compute; reflexivity|]). split; [vm_compute; eexists; split; reflexivity|].
  split; [|split; [split; [intros c [<-|[<-|[<-|[<-|[]]]]]; vm_compute; repeat constructor|exists (str "abcd"); split; [left; reflexivity|reflexivity]]|vm_compute; repeat split]].
  constructor.
  - intros x _. apply ascii_measure.
  - replace (pr_string (ed_prompt s')) with (str "$ ") by (vm_compute; reflexivity). apply styled_id. vm_compute. narrow_concrete.
  - vm_compute. narrow_concrete.
  - intros f x H. vm_compute in H. discriminate H.
  - intros comps i H. vm_compute in H. injection H as <- _. repeat constructor; intro K; vm_compute in K; decompose [or] K; try discriminate; contradiction.
  - intro H. vm_compute in H. decompose [or] H; try discriminate; contradiction.
  - discriminate.
  - apply rows_bound; [repeat constructor|intro H; vm_compute in H; decompose [or] H; try discriminate; contradiction|vm_compute; reflexivity].
  - reflexivity.
Qed.

(** Three candidates in three columns: the second Tab draws them one row
    higher than the first, over the last line the program printed before the
    prompt. *)
Theorem C81_refuted : exists E s s1 s2, e_uni E = ascii_uni /\
  s = final (emacs_run E [] (keys (str "ab"))) blank_ed /\
  s1 = final (emacs_run E [] (keys (str "ab") ++ [KChar c_tab])) blank_ed /\
  s2 = final (emacs_run E [] (keys (str "ab") ++ [KChar c_tab; KChar c_tab])) blank_ed /\
  forall g, 
  let screen_of s := paints 20 (fun _ => 1) (mkTerm 5 0 [] Ground) g (render_toks (ed_tty s)) in
  map (screen_of s 5) (seq 0 4) = map Some (str "$ ab") /\
  map (screen_of s1 5) (seq 0 4) = map Some (str "abcd") /\ map (screen_of s1 6) (seq 0 4) = map Some (str "$ ab") /\
  (forall j, screen_of s1 4 j = g 4 j) /\ map (screen_of s2 4) (seq 0 4) = map Some (str "abcd").
Proof.
  exists (mkEnv ascii_uni (Some 20) true (Some 20) get_buffer_words (fun _ => [str "abcd"; str "abd"; str "abe"])).
  do 3 eexists. split; [reflexivity|]. do 3 (split; [reflexivity|]). intros g screen_of. unfold screen_of. vm_compute. repeat split.
Qed.
Print Assumptions C81_refuted.

(** Candidates longer than half a row are padded to more than a whole row: the
    second Tab begins one row too low, and the first row of the old list stays
    on the screen. *)
Theorem C81_long_refuted : exists E s1 s2, e_uni E = ascii_uni /\
  s1 = final (emacs_run E [] (keys (str "ab") ++ [KChar c_tab])) blank_ed /\
  s2 = final (emacs_run E [] (keys (str "ab") ++ [KChar c_tab; KChar c_tab])) blank_ed /\
  ed_hint s2 = Some ([str "abcdef"; str "abxyzw"], Some 0) /\
  forall g,
  let screen_of s := paints 10 (fun _ => 1) (mkTerm 5 0 [] Ground) g (render_toks (ed_tty s)) in
  map (screen_of s1 5) (seq 0 6) = map Some (str "abcdef") /\ map (screen_of s1 7) (seq 0 6) = map Some (str "abxyzw") /\
  map (screen_of s1 9) (seq 0 4) = map Some (str "$ ab") /\
  map (screen_of s2 5) (seq 0 6) = map Some (str "abcdef") /\ map (screen_of s2 6) (seq 0 6) = map Some (str "abcdef") /\
  map (screen_of s2 10) (seq 0 8) = map Some (str "$ abcdef").
Proof.
  exists (mkEnv ascii_uni (Some 10) true (Some 10) get_buffer_words (fun _ => [str "abcdef"; str "abxyzw"])).
  do 2 eexists. split; [reflexivity|]. do 2 (split; [reflexivity|]). split; [vm_compute; reflexivity|]. intros g screen_of. unfold screen_of. vm_compute. repeat split.
Qed.
Print Assumptions C81_long_refuted.
