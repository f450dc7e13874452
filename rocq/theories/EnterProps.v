(** The screen after Enter: C83. *)
From Verif Require Import Base Utf8 BufferModel UtilModel HistoryModel EditorState EditorModel KeymapModel ViModel Tests Samples
  ScreenSpec ScreenProofs GridSpec GridProofs FreshSpec FreshProofs EnterSpec EnterProofs.
Local Open Scope monad_scope.

(** ** C83: after Enter, output continues below the line

    When Enter finishes the line, prompt and line stand from the row of the
    prompt on, the suggestion is gone, and the cursor is at the beginning of a
    row below all of it.

    Missing from the full claim: lines whose suggestion takes more rows than
    the line itself ([same_rows]); there the claim is false. *)
Theorem C83_partial : forall W cw E s s' pv b t,
  handle_newline E s = ORet true s' -> is_search s = false -> terminal_width (e_size E) = Some W ->
  cur_buf s = Val b -> on_screen s t -> (exists r, t = data b ++ r) ->
  drawable W cw (e_uni E) (pr_string (ed_prompt s)) pv t s -> drawable W cw (e_uni E) (pr_string (ed_prompt s)) pv (data b) s ->
  same_rows W pv (data b) t -> (N.of_nat (ed_tcl s) < 65536)%N ->
  exists toks, ed_tty s' = ed_tty s ++ toks /\ cur_buf s' = Val b /\
  forall T g, t_st T = Ground ->
    let r := t_row T - (ed_tcl s - 1) in let T' := shows W cw T toks in
    exists L e, laid W (length pv) (r, 0) (pv ++ data b) L e /\ exactly r L g (paints W cw T g (render_toks toks)) /\
      t_st T' = Ground /\ t_col T' = 0 /\ r < t_row T' /\ forall i j c, In (i, j, c) L -> i < t_row T'.
Proof. exact enter_screen. Qed.
Print Assumptions C83_partial.

(** The same for a whole session as in C82, begun with the cursor in row
    [t_row T]. *)
Theorem C83_session_partial : forall W cw sb l E s s' pv b t, drawn sb l s -> Forall (plain W cw) l -> ed_tcl sb = 1 ->
  handle_newline E s = ORet true s' -> is_search s = false -> terminal_width (e_size E) = Some W ->
  cur_buf s = Val b -> on_screen s t -> (exists r, t = data b ++ r) ->
  drawable W cw (e_uni E) (pr_string (ed_prompt s)) pv t s -> drawable W cw (e_uni E) (pr_string (ed_prompt s)) pv (data b) s ->
  same_rows W pv (data b) t -> (N.of_nat (ed_tcl s) < 65536)%N ->
  exists toks, ed_tty s' = ed_tty sb ++ toks /\ cur_buf s' = Val b /\
  forall T g, t_st T = Ground ->
    let T' := shows W cw T toks in let g' := paints W cw T g (render_toks toks) in
    (forall i j, i < t_row T -> g' i j = g i j) /\
    exists r L e, t_row T <= r /\ (Forall (fun d => rd_clear d = false) l -> r = t_row T) /\
      laid W (length pv) (r, 0) (pv ++ data b) L e /\ (forall i j c, r <= i -> (g' i j = Some c <-> In (i, j, c) L)) /\
      t_col T' = 0 /\ r < t_row T' /\ forall i j c, In (i, j, c) L -> i < t_row T'.
Proof. exact enter_session. Qed.
Print Assumptions C83_session_partial.

(** Ten columns: "echo abc" fills the row together with the prompt.  And "ec"
    with the suggestion "echo a", which ends in the same row: after Enter the
    suggestion is gone and the cursor one row below. *)
Example C83_case :
  let E := mkEnv ascii_uni (Some 10) true (Some 10) get_buffer_words (fun _ => []) in
  let s := final (emacs_run E [str "echo a"] (keys (str "ec"))) blank_ed in
  let s' := match handle_newline E s with ORet _ x => x | _ => blank_ed end in
  let toks := skipn (length (ed_tty s)) (ed_tty s') in
  let T := mkTerm 5 4 [] Ground in
  let g' := paints 10 (fun _ => 1) T (fun _ _ => Some (ch "#")) (render_toks toks) in
  handle_newline E s = ORet true s' /\ is_search s = false /\ ed_tcl s = 1 /\
  (exists b, cur_buf s = Val b /\ data b = str "ec") /\ on_screen s (str "echo a") /\
  drawable 10 (fun _ => 1) ascii_uni (str "$ ") (str "$ ") (str "echo a") s /\ drawable 10 (fun _ => 1) ascii_uni (str "$ ") (str "$ ") (str "ec") s /\
  same_rows 10 (str "$ ") (str "ec") (str "echo a") /\
  map (g' 5) (seq 0 6) = map Some (str "$ ec") ++ [None; None] /\ shows 10 (fun _ => 1) T toks = mkTerm 6 0 (t_log (shows 10 (fun _ => 1) T toks)) Ground.
Proof.
  intros E s s' toks T g'.
  split; [vm_compute; reflexivity|]. split; [vm_compute; reflexivity|]. split; [vm_compute; reflexivity|].
  split; [eexists; split; vm_compute; reflexivity|]. split; [vm_compute; reflexivity|].
  assert (Hd : forall t, Forall (narrow (fun _ => 1)) t -> (N.of_nat (endn 10 2 0 (str "$ " ++ t) / 10) < 65536)%N ->
     drawable 10 (fun _ => 1) ascii_uni (str "$ ") (str "$ ") t s).
  { intros t H8 H9.
    assert (Hnl : ~ In c_nl t).
    { intro K. rewrite Forall_forall in H8. specialize (H8 _ K). destruct H8 as [H8 _]. vm_compute in H8. try discriminate; try tauto. }
    constructor.
    - intros x _. apply ascii_measure.
    - apply styled_id. vm_compute. narrow_concrete.
    - rewrite Forall_forall in *. intros c Hc. right. apply H8. exact Hc.
    - intros f x H. vm_compute in H. discriminate H.
    - intros comps i H. vm_compute in H. discriminate H.
    - intro K. contradiction.
    - discriminate.
    - apply rows_bound; [repeat constructor|intros _; vm_compute; repeat constructor|exact H9].
    - reflexivity. }
  split; [apply Hd; [vm_compute; narrow_concrete|vm_compute; reflexivity]|].
  split; [apply Hd; [vm_compute; narrow_concrete|vm_compute; reflexivity]|].
  split; [|split; vm_compute; reflexivity].
  right. pose proof (laid_cells 10 (Nat.lt_0_succ 9) 0 2 (str "$ ec") 0) as H1. pose proof (laid_cells 10 (Nat.lt_0_succ 9) 0 2 (str "$ echo a") 0) as H2.
  eexists _, _, _, _. split; [apply H1; intro; repeat constructor|]. split; [apply H2; intro; repeat constructor|].
  split; [vm_compute; reflexivity|vm_compute; discriminate].
Qed.

(** The suggestion "echo abcdefgh" takes a second row.  Enter erases it, but
    goes up by its rows: the line break ends in the row of the line itself, and
    what the program prints replaces it. *)
Theorem C83_refuted : exists E s s', e_uni E = ascii_uni /\
  s = final (emacs_run E [str "echo abcdefgh"] (keys (str "ec"))) blank_ed /\ handle_newline E s = ORet true s' /\
  forall g, let T := mkTerm 5 0 [] Ground in let t := render_toks (ed_tty s') in
  map (paints 10 (fun _ => 1) T g t 5) (seq 0 4) = map Some (str "$ ec") /\
  (t_row (feeds 10 (fun _ => 1) T t), t_col (feeds 10 (fun _ => 1) T t)) = (5, 0) /\
  map (paints 10 (fun _ => 1) T g (t ++ str "out") 5) (seq 0 4) = map Some (str "outc").
Proof.
  exists (mkEnv ascii_uni (Some 10) true (Some 10) get_buffer_words (fun _ => [])).
  do 2 eexists. split; [reflexivity|]. split; [reflexivity|]. split; [vm_compute; reflexivity|]. intro g. vm_compute. repeat split.
Qed.
Print Assumptions C83_refuted.

(** In Vi's normal mode it is enough that the line fills its row and there is
    a suggestion. *)
Theorem C83_vi_refuted : exists E s s', e_uni E = ascii_uni /\
  s = final (vi_run E [str "echo abcd"] (keys (str "echo abc") ++ [KEsc])) blank_ed /\ handle_newline E s = ORet true s' /\
  forall g, let T := mkTerm 5 0 [] Ground in let t := render_toks (ed_tty s') in
  map (paints 10 (fun _ => 1) T g t 5) (seq 0 10) = map Some (str "$ echo abc") /\
  (t_row (feeds 10 (fun _ => 1) T t), t_col (feeds 10 (fun _ => 1) T t)) = (5, 0).
Proof.
  exists (mkEnv ascii_uni (Some 10) true (Some 10) get_buffer_words (fun _ => [])).
  do 2 eexists. split; [reflexivity|]. split; [reflexivity|]. split; [vm_compute; reflexivity|]. intro g. vm_compute. repeat split.
Qed.
Print Assumptions C83_vi_refuted.
