(** The two ends of the history: C89. *)
From Verif Require Import Base BufferModel UtilModel HistoryModel HistorySpec EditorState EditorModel KeymapModel
  Tests Samples EditorSpec EndsProofs.
Local Open Scope monad_scope.

(** ** C89: Alt-< shows the oldest line, Alt-> the new one

    In any state outside a search and outside the normal mode of Vi
    ([ed_noeol]). The oldest line is shown as it is in the history, even if a
    copy of it was edited; with an empty history the new line stays. *)
Theorem C89_oldest : forall E k s d k' s', is_search s = false -> ed_noeol s = false ->
  handle_key emacs_core E (KAlt (ch "<")) (k, s) = ORet d (k', s') ->
  d = false /\ ed_new s' = ed_new s /\ ed_history s' = ed_history s /\
  match texts (ed_history s) with
  | t :: _ => line_is s' t (length t)
  | [] => line_is s' (data (ed_new s)) (Nat.min (ed_cursor s) (length (data (ed_new s))))
  end.
Proof. exact alt_start. Qed.
Print Assumptions C89_oldest.

(** The cursor moves only if a recalled line was shown. *)
Theorem C89_new : forall E k s d k' s', is_search s = false -> ed_noeol s = false ->
  handle_key emacs_core E (KAlt (ch ">")) (k, s) = ORet d (k', s') ->
  d = false /\ ed_new s' = ed_new s /\ ed_history s' = ed_history s /\ ed_loc s' = None /\
  let t := data (ed_new s) in
  line_is s' t (match ed_loc s with Some _ => length t | None => Nat.min (ed_cursor s) (length t) end).
Proof. exact alt_end. Qed.
Print Assumptions C89_new.

(** The oldest line is shown, edited, shown again as it was, and left for the
    line being typed. *)
Example C89_case :
  let line ks := seen (emacs_run test_env (map str ["old"; "ab"; "new"]%string) ks) in
  let k1 := keys (str "a") ++ [KLeft; KAlt (ch "<")] in
  let k2 := k1 ++ [KChar (ch "Z"); KHome] in
  let k3 := k2 ++ [KAlt (ch "<")] in
  let k4 := k3 ++ [KLeft; KAlt (ch ">")] in
  let k5 := k4 ++ [KLeft; KAlt (ch ">")] in
  map line [k1; k2; k3; k4; k5] =
    map Some [(false, str "old", 3); (false, str "oldZ", 0); (false, str "old", 3); (false, str "a", 1); (false, str "a", 0)].
Proof. vm_compute. reflexivity. Qed.
Example C89_empty_case : seen (emacs_run test_env [] (keys (str "ab") ++ [KLeft; KAlt (ch "<")])) = Some (false, str "ab", 1).
Proof. vm_compute. reflexivity. Qed.
