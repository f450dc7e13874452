(** A program that reads line after line: C76. *)
From Verif Require Import Base Utf8 BufferModel UtilModel HistoryModel HistorySpec HistoryFiles EditorState EditorModel KeymapModel
  ViModel Tests Samples EditorSpec ReplModel ReplSpec ReplProofs.
Local Open Scope monad_scope.

(** ** C76: a program that reads line after line remembers exactly what was entered *)

(** The loop of the example programs, at any point: whatever was typed (recalled
    lines edited, searches, lines given up with Ctrl-C), the history holds the
    newest of the lines it had and the lines [L] that were entered, without
    repetitions, and no file has changed. *)
Theorem C76_history : forall p f rs vk h w cb ttys, private_history h ->
  match main_loop p f rs vk h w cb ttys [] with
  | Left h' w' L | Waiting _ h' w' _ _ L => w' = w /\ remembered h (texts h) L (texts h')
  | Panicked => True
  end.
Proof. exact loop_history. Qed.
Print Assumptions C76_history.

(** At the start of the next line, Up shows the line entered last. *)
Theorem C76_emacs_last : forall p f rs vk h w cb ttys vk' h' w' cb' ttys' L t E0 s0 E d k s, private_history h ->
  main_loop p f rs vk h w cb ttys [] = Waiting vk' h' w' cb' ttys' (L ++ [t]) ->
  editor_new E0 p f buf_new h' w' cb' ttys' = ORet tt s0 -> handle_key emacs_core E KUp (emacs_new, s0) = ORet d (k, s) ->
  d = false /\ line_is s t (length t).
Proof. exact emacs_last. Qed.
Print Assumptions C76_emacs_last.
Theorem C76_vi_last : forall p f rs vk h w cb ttys vk' h' w' cb' ttys' L t E0 s0 v s1 E d v' s, private_history h ->
  main_loop p f rs vk h w cb ttys [] = Waiting vk' h' w' cb' ttys' (L ++ [t]) ->
  editor_new E0 p f buf_new h' w' cb' ttys' = ORet tt s0 -> vi_init E0 (vi_new, s0) = ORet tt (v, s1) ->
  handle_key vi_core E KUp (v, s1) = ORet d (v', s) -> d = false /\ line_is s t (length t).
Proof. exact vi_last. Qed.
Print Assumptions C76_vi_last.

(** [n] Ups show the [n]-th newest line remembered, or the oldest. *)
Theorem C76_emacs_up : forall p f rs vk h w cb ttys vk' h' w' cb' ttys' L E0 s0 Es E d k s, private_history h ->
  main_loop p f rs vk h w cb ttys [] = Waiting vk' h' w' cb' ttys' L ->
  editor_new E0 p f buf_new h' w' cb' ttys' = ORet tt s0 ->
  run_keys emacs_core (map (fun E => (E, KUp)) (Es ++ [E])) (emacs_new, s0) = ORet d (k, s) ->
  exists mem, remembered h (texts h) L mem /\ d = false /\
    let t := nth (Nat.min (length mem) (S (length Es))) ([] :: rev mem) [] in line_is s t (length t).
Proof. exact loop_up_emacs. Qed.
Print Assumptions C76_emacs_up.
Theorem C76_vi_up : forall p f rs vk h w cb ttys vk' h' w' cb' ttys' L E0 s0 v s1 Es E d v' s, private_history h ->
  main_loop p f rs vk h w cb ttys [] = Waiting vk' h' w' cb' ttys' L ->
  editor_new E0 p f buf_new h' w' cb' ttys' = ORet tt s0 -> vi_init E0 (vi_new, s0) = ORet tt (v, s1) ->
  run_keys vi_core (map (fun E => (E, KUp)) (Es ++ [E])) (v, s1) = ORet d (v', s) ->
  exists mem, remembered h (texts h) L mem /\ d = false /\
    let t := nth (Nat.min (length mem) (S (length Es))) ([] :: rev mem) [] in line_is s t (length t).
Proof. exact loop_up_vi. Qed.
Print Assumptions C76_vi_up.

(** The whole program, left by Ctrl-D, an empty line or "exit": its history file
    then holds the newest 1000 of the lines it had and the lines entered, and
    this is what the program starts with next time, up to C48. *)
Theorem C76_file : forall p f w name ttys rs w' L r, main p f w name ttys rs = Some (w', L) ->
  starts_with_lines w name r -> Forall uni_text L ->
  exists old mem, newest 1000 r old /\ remembered hist_new old L mem /\
    has_content w' name (lines_bytes mem) /\ (forall q, q <> name -> fs_files w' q = fs_files w q) /\
    exists g, set_file_name_and_load_history w' hist_new name = (Some (length (lines_bytes mem)), g, w') /\
      newest 1000 (flat_map written_entry mem) (texts g).
Proof. exact main_file. Qed.
Print Assumptions C76_file.

(** For plain lines exactly this. *)
Theorem C76_restart : forall p f w name ttys rs w' L r, main p f w name ttys rs = Some (w', L) ->
  starts_with_lines w name r -> Forall plain_line r -> Forall plain_line L ->
  exists old mem g, newest 1000 r old /\ remembered hist_new old L mem /\
    set_file_name_and_load_history w' hist_new name = (Some (length (lines_bytes mem)), g, w') /\ texts g = mem.
Proof. exact main_file_plain. Qed.
Print Assumptions C76_restart.

(** Reverting the history at the end of a line, as the documentation of
    [read_line] announces, would change nothing. *)
Theorem C76_revert : forall p f rs vk h w cb ttys, private_history h -> nothing_to_undo h ->
  match main_loop p f rs vk h w cb ttys [] with
  | Left h' _ _ | Waiting _ h' _ _ _ _ => revert_all_history h' = Val h'
  | Panicked => True
  end.
Proof. exact loop_reverts. Qed.
Print Assumptions C76_revert.

(** The file holds "ls".  Entered are "cd"; a line given up by Ctrl-C; Up, an
    edit, Ctrl-C; "cd" again; "vi"; in Vi, Up twice and "x" gives "cx".  Then
    Ctrl-D. *)
Example C76_case :
  let w := mkFs (fun q => if text_eqb q (str "f") then Some (mkFile (lines_bytes [str "ls"]) true true) else None) (fun _ => false) in
  let r l := mkRound test_env (map (pair test_env) l) in
  let enter := KChar c_nl in
  let rs := [r (keys (str "cd") ++ [enter]); r (keys (str "zz") ++ [KCtrl (ch "c")]); r [KUp; KBackspace; KCtrl (ch "c")];
             r [KUp; enter]; r (keys (str "vi") ++ [enter]); r ([KUp; KUp; KBackspace] ++ keys (str "x") ++ [KEsc; enter]); r [KCtrl (ch "d")]] in
  starts_with_lines w (str "f") [str "ls"] /\
  match main (mkPrompt (str "$ ") None) None w (str "f") [] rs with
  | Some (w', L) => L = map str ["cd"; "cd"; "vi"; "cx"]%string /\
      option_map f_bytes (fs_files w' (str "f")) = Some (lines_bytes (map str ["ls"; "cd"; "vi"; "cx"]%string))
  | None => False
  end.
Proof.
  cbv zeta. split.
  - left. eexists. split; [eexists; split; [reflexivity|split; reflexivity]|]. split; [apply reads_iff; vm_compute; reflexivity|].
    eexists. split; reflexivity.
  - vm_compute. split; reflexivity.
Qed.
Example C76_private_case : private_history (hist_of [str "a"; str "b"]) /\ nothing_to_undo (hist_of [str "a"; str "b"]) /\
  match main_loop (mkPrompt (str "$ ") None) None [mkRound test_env (map (pair test_env) [KUp; KUp; KChar c_nl])] false
          (hist_of [str "a"; str "b"]) no_fs [] [] [] with
  | Waiting false h' _ cb ttys L => L = [] ++ [str "a"] /\ texts h' = map str ["a"; "b"; "a"]%string /\
      match editor_new test_env (mkPrompt (str "$ ") None) None buf_new h' no_fs cb ttys with
      | ORet _ s0 => seen (handle_key emacs_core test_env KUp (emacs_new, s0)) = Some (false, str "a", 1)
      | _ => False
      end
  | _ => False
  end.
Proof.
  split. { split; [reflexivity|]. split; [left; reflexivity|]. change (0 < 1000 /\ 2 <= 1000). split; lia. }
  split; [repeat constructor|]. vm_compute. repeat split; reflexivity.
Qed.
