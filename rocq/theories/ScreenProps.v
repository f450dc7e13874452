(** Where a redraw leaves the terminal cursor: C42. *)
From Verif Require Import Base Utf8 BufferModel UtilModel HistoryModel EditorState EditorModel KeymapModel Tests Samples
  ScreenSpec ScreenProofs.
Local Open Scope monad_scope.

(** ** C42: a redraw puts the terminal cursor on the logical cursor

    Missing from the full claim: prompt and line consist of printable
    characters one cell wide (and newlines); a line with newlines needs a prompt
    that is not empty and narrower than the terminal; prompt and line are not
    both empty; fewer than 65536 rows.  The refutations below show what happens
    otherwise.  [drawable] collects these conditions.

    The terminal of ScreenSpec.v reads the characters of one redraw, from any
    position.  Then what was drawn is the layout of prompt, line and suggestion, and the
    cursor stands where the text before the logical cursor ends and the rest
    begins.  Without a list of candidates the prompt starts in the row the
    previous redraw started in. *)
Theorem C42_partial : forall W cw E s u s' pv t,
  display E s = ORet u s' -> is_search s = false -> terminal_width (e_size E) = Some W ->
  on_screen s' t -> drawable W cw (e_uni E) (pr_string (ed_prompt s')) pv t s' ->
  exists toks, ed_tty s' = ed_tty s ++ toks /\
  (exists b r, cur_buf s' = Val b /\ t = data b ++ r /\ ed_cursor s' <= length (data b)) /\
  forall T, t_st T = Ground -> exists r L0 L1 L2 p e,
    shows W cw T toks = mkTerm (fst p) (snd p) (t_log T ++ L0 ++ L1 ++ L2) Ground /\
    laid W (length pv) (r, 0) (pv ++ firstn (ed_cursor s') t) L1 p /\
    laid W (length pv) p (skipn (ed_cursor s') t) L2 e /\
    (ed_hint s' = None -> L0 = [] /\ fst p = r + (ed_tcl s' - 1) /\
       ((N.of_nat (ed_tcl s) < 65536)%N -> r = t_row T - (ed_tcl s - 1))).
Proof. exact redraw_cursor. Qed.
Print Assumptions C42_partial.

(** During a search the prompt shows the term; the cursor stands in it. *)
Theorem C42_search_partial : forall W cw E s u s' b prompt n pre pv t,
  display E s = ORet u s' -> is_search s = true -> terminal_width (e_size E) = Some W ->
  on_screen s' t -> search_prompt (e_uni E) s' = Val (prompt, n) -> drawable W cw (e_uni E) prompt pv t s' ->
  (forall c, (32 <= c < 127)%N -> cw c = 1) ->
  cur_buf s' = Val b -> Forall (narrow cw) (data b) -> ~ In c_nl t ->
  styled (narrow cw) (pr_prefix (ed_prompt s')) pre -> u_striplen (e_uni E) (pr_prefix (ed_prompt s')) = length pre ->
  exists toks q, ed_tty s' = ed_tty s ++ toks /\ ed_cursor s' <= length (data b) /\
  pv = pre ++ str "(search)'" ++ data b ++ ch "`" :: q /\
  forall T, t_st T = Ground -> exists r L0 L1 L2 p e,
    shows W cw T toks = mkTerm (fst p) (snd p) (t_log T ++ L0 ++ L1 ++ L2) Ground /\
    laid W (length pv) (r, 0) (pre ++ str "(search)'" ++ firstn (ed_cursor s') (data b)) L1 p /\
    laid W (length pv) p (skipn (ed_cursor s') (data b) ++ ch "`" :: q ++ t) L2 e /\
    (ed_hint s' = None -> L0 = [] /\ fst p = r + (ed_tcl s' - 1) /\
       ((N.of_nat (ed_tcl s) < 65536)%N -> r = t_row T - (ed_tcl s - 1))).
Proof. exact redraw_search. Qed.
Print Assumptions C42_search_partial.

(** Ten columns, a continued line of which the rest is suggested, the cursor
    on the last letter typed: it is drawn in row 5, column 2. *)
Example C42_case :
  let E := mkEnv ascii_uni (Some 10) true (Some 10) get_buffer_words (fun _ => []) in
  let l := str "echo abcdefg" ++ [c_bs; c_nl] ++ str "b" in
  let s := final (emacs_run E [l ++ str " hij"] (keys l ++ [KLeft])) blank_ed in
  let s' := match display E s with ORet _ x => x | _ => blank_ed end in
  display E s = ORet tt s' /\ is_search s = false /\ terminal_width (e_size E) = Some 10 /\
  on_screen s' (l ++ str " hij") /\
  drawable 10 (fun _ => 1) (e_uni E) (pr_string (ed_prompt s')) (str "$ ") (l ++ str " hij") s' /\
  (let T := shows 10 (fun _ => 1) (mkTerm 5 3 [] Ground) (skipn (length (ed_tty s)) (ed_tty s')) in
   (t_row T, t_col T) = (5, 2) /\ In (5, 2, ch "b") (t_log T)).
Proof.
  intros E l s s'. split; [vm_compute; reflexivity|]. split; [vm_compute; reflexivity|]. split; [reflexivity|]. split; [vm_compute; reflexivity|].
  split; [|vm_compute; repeat split; tauto].
  constructor.
  - intros x _. apply ascii_measure.
  - replace (pr_string (ed_prompt s')) with (str "$ ") by (vm_compute; reflexivity). apply styled_id. vm_compute. narrow_concrete.
  - vm_compute. narrow_concrete.
  - intros f x H. vm_compute in H. discriminate H.
  - intros comps i H. vm_compute in H. discriminate H.
  - intros _. vm_compute. repeat constructor.
  - discriminate.
  - apply rows_bound; [repeat constructor|intros _; vm_compute; repeat constructor|vm_compute; reflexivity].
  - reflexivity.
Qed.

(** A search for "ec" with the cursor on "c", which is drawn in row 5,
    column 0. *)
Example C42_search_case :
  let E := mkEnv ascii_uni (Some 10) true (Some 10) get_buffer_words (fun _ => []) in
  let s := final (emacs_run E [str "echo"; str "xech"] (KCtrl (ch "r") :: keys (str "ec") ++ [KLeft])) blank_ed in
  let s' := match display E s with ORet _ x => x | _ => blank_ed end in
  let prompt := match search_prompt ascii_uni s' with Val (p, _) => p | _ => [] end in
  display E s = ORet tt s' /\ is_search s = true /\ on_screen s' (str "xech") /\
  search_prompt ascii_uni s' = Val (prompt, 9) /\
  drawable 10 (fun _ => 1) (e_uni E) prompt (str "(search)'ec` (2/2): ") (str "xech") s' /\
  option_map data (match cur_buf s' with Val b => Some b | _ => None end) = Some (str "ec") /\ pr_prefix (ed_prompt s') = [] /\
  (let T := shows 10 (fun _ => 1) (mkTerm 5 3 [] Ground) (skipn (length (ed_tty s)) (ed_tty s')) in
   (t_row T, t_col T) = (5, 0) /\ In (5, 0, ch "c") (t_log T)).
Proof.
  intros E s s' prompt. do 4 (split; [vm_compute; reflexivity|]).
  split; [|vm_compute; repeat split; tauto].
  constructor.
  - intros x _. apply ascii_measure.
  - assert (K : exists r, styled (narrow (fun _ => 1)) prompt ([] ++ str "(search)'" ++ str "ec" ++ ch "`" :: r) /\ r = str " (2/2): ").
    { exists (str " (2/2): "). split; [|reflexivity].
      assert (Ep : prompt = str "(search)'" ++ csi (str "38;5;2" ++ str "m") ++ str "ec" ++ csi (str "39" ++ str "m") ++ str "` (2/2): ") by (vm_compute; reflexivity).
      rewrite Ep. cbn [app]. apply styled_app with (v := str "(search)'"); [apply styled_id; vm_compute; narrow_concrete|].
      apply styled_color; [repeat constructor; vm_compute; discriminate|]. apply (styled_app _ (str "ec") _ (str "ec")); [apply styled_id; vm_compute; narrow_concrete|].
      apply styled_color; [repeat constructor; vm_compute; discriminate|]. apply styled_id. vm_compute. narrow_concrete. }
    destruct K as [r [K ->]]. exact K.
  - vm_compute. narrow_concrete.
  - intros f x H. vm_compute in H. discriminate H.
  - intros comps i H. vm_compute in H. discriminate H.
  - intro H. vm_compute in H. decompose [or] H; try discriminate; contradiction.
  - discriminate.
  - apply rows_bound; [repeat constructor| |vm_compute; reflexivity]. intro H. vm_compute in H. decompose [or] H; try discriminate; contradiction.
  - reflexivity.
Qed.

(** The full claim is false.  With an empty prompt and an empty line every
    redraw moves the cursor down one row. *)
Theorem C42_empty_refuted : exists E s s' toks, e_uni E = ascii_uni /\ pr_string (ed_prompt s) = [] /\ ed_tcl s = 1 /\
  display E s = ORet tt s' /\ ed_tty s' = ed_tty s ++ toks /\ ed_tcl s' = 1 /\
  shows 10 (fun _ => 1) (mkTerm 5 0 [] Ground) toks = mkTerm 6 0 [] Ground.
Proof.
  exists (mkEnv ascii_uni (Some 10) true (Some 10) get_buffer_words (fun _ => [])), (set_prompt (mkPrompt [] None) blank_ed).
  do 2 eexists. split; [reflexivity|]. split; [reflexivity|]. split; [reflexivity|]. split; [vm_compute; reflexivity|].
  split; [cbn [ed_tty blank_ed set_prompt app]; reflexivity|]. split; vm_compute; reflexivity.
Qed.
Print Assumptions C42_empty_refuted.

(** Five columns: a wide character does not fit into the last column and is
    drawn in the next row, which the editor does not take into account.  The
    cursor is on "b". *)
Theorem C42_wide_refuted : exists cw E s s' toks T, 
  (forall x, u_width (e_uni E) x = list_sum (map cw x)) /\
  display E s = ORet tt s' /\ ed_tty s' = ed_tty s ++ toks /\ T = shows 5 cw (mkTerm 5 0 [] Ground) toks /\
  (exists b, cur_buf s' = Val b /\ nth_error (data b) (ed_cursor s') = Some (ch "b")) /\
  In (5, 3, ch "b") (t_log T) /\ (t_row T, t_col T) = (5, 4).
Proof.
  exists (fun c => if (4352 <=? c)%N then 2 else 1),
    (mkEnv (mkUni (u_white ascii_uni) (u_alnum ascii_uni) (u_lower ascii_uni) (u_upper ascii_uni) (u_toupper ascii_uni) (u_tolower ascii_uni)
      (fun t => list_sum (map (fun c => if (4352 <=? c)%N then 2 else 1) t)) (@length N)) (Some 5) true (Some 5) get_buffer_words (fun _ => [])),
    (set_cursor 1 (set_new (buf_of [ch "a"; ch "b"; 30028%N; ch "x"]) (set_prompt (mkPrompt (str "$ ") None) blank_ed))).
  do 3 eexists. split; [reflexivity|]. split; [vm_compute; reflexivity|].
  split; [cbn [ed_tty blank_ed set_prompt set_cursor set_new app]; reflexivity|]. split; [vm_compute; reflexivity|].
  split; [eexists; split; reflexivity|]. split; [vm_compute; tauto|reflexivity].
Qed.
Print Assumptions C42_wide_refuted.

(** Two lines without a prompt: the second is drawn one column too far to the
    right (a movement by 0 moves by 1), and the cursor, which belongs on "a",
    ends up beside it. *)
Theorem C42_noprompt_refuted : exists E s s' toks T, e_uni E = ascii_uni /\
  display E s = ORet tt s' /\ ed_tty s' = ed_tty s ++ toks /\ T = shows 10 (fun _ => 1) (mkTerm 5 0 [] Ground) toks /\
  (exists b, cur_buf s' = Val b /\ data b = [ch "a"; c_bs; c_nl; ch "b"]) /\ ed_cursor s' = 0 /\
  t_log T = [(5, 0, ch "a"); (5, 1, c_bs); (6, 1, ch "b")] /\ (t_row T, t_col T) = (5, 1).
Proof.
  exists (mkEnv ascii_uni (Some 10) true (Some 10) get_buffer_words (fun _ => [])),
    (set_new (buf_of [ch "a"; c_bs; c_nl; ch "b"]) (set_prompt (mkPrompt [] None) blank_ed)).
  do 3 eexists. split; [reflexivity|]. split; [vm_compute; reflexivity|].
  split; [cbn [ed_tty blank_ed set_prompt set_cursor set_new app]; reflexivity|]. split; [vm_compute; reflexivity|].
  split; [eexists; split; reflexivity|]. repeat split.
Qed.
Print Assumptions C42_noprompt_refuted.

(** Two lines with a prompt as wide as the terminal: the cursor belongs on
    "a" in row 6. *)
Theorem C42_wideprompt_refuted : exists E s s' toks T, e_uni E = ascii_uni /\
  display E s = ORet tt s' /\ ed_tty s' = ed_tty s ++ toks /\ T = shows 2 (fun _ => 1) (mkTerm 5 0 [] Ground) toks /\
  (exists b, cur_buf s' = Val b /\ data b = [ch "a"; c_bs; c_nl; ch "b"]) /\ ed_cursor s' = 0 /\
  In (6, 0, ch "a") (t_log T) /\ (t_row T, t_col T) = (5, 0).
Proof.
  exists (mkEnv ascii_uni (Some 2) true (Some 2) get_buffer_words (fun _ => [])),
    (set_new (buf_of [ch "a"; c_bs; c_nl; ch "b"]) (set_prompt (mkPrompt (str "$ ") None) blank_ed)).
  do 3 eexists. split; [reflexivity|]. split; [vm_compute; reflexivity|].
  split; [cbn [ed_tty blank_ed set_prompt set_cursor set_new app]; reflexivity|]. split; [vm_compute; reflexivity|].
  split; [eexists; split; reflexivity|]. split; [reflexivity|]. split; [vm_compute; tauto|reflexivity].
Qed.
Print Assumptions C42_wideprompt_refuted.
