(** Keys that have no meaning: C90. *)
From Verif Require Import Base BufferModel UtilModel HistoryModel EditorState EditorModel KeymapModel ViModel
  Tests Samples EditorSpec InertSpec InertProofs.
Local Open Scope monad_scope.

(** ** C90: a key without a meaning does nothing

    Whatever state the session is in, even in a search: the only trace is that
    the list of candidates is put away and that Alt-. starts again at the newest
    entry.  Nothing is sent to the terminal. *)
Theorem C90_emacs : forall E k x s t c, emacs_idle k -> line_is s t c ->
  handle_key emacs_core E k (x, s) =
    if e_wok E then ORet false (emacs_new, set_hint None s) else OErr EOther (emacs_new, set_hint None s).
Proof. exact emacs_idle_key. Qed.
Print Assumptions C90_emacs.

(** In Vi a count that was begun also stays. *)
Theorem C90_vi : forall E k v s t c, vi_idle k -> vmode_of v = MNormal \/ vmode_of v = MInsert -> line_is s t c ->
  handle_key vi_core E k (v, s) =
    if e_wok E then ORet false (v, set_hint None s) else OErr EOther (v, set_hint None s).
Proof. exact vi_idle_key. Qed.
Print Assumptions C90_vi.

(** Esc leaves a search as it is.  In Vi, 2, a key without a meaning and x delete
    two characters. *)
Example C90_case :
  emacs_idle KEsc /\ emacs_idle (KCtrl (ch "g")) /\ emacs_idle (KAlt (ch "x")) /\ ~ emacs_idle (KAlt (ch "f")) /\
  vi_idle (KAlt (ch "x")) /\ vi_idle (KCtrl (ch "g")) /\ ~ vi_idle KEsc /\
  let run ks := match emacs_run test_env (map str ["echo"; "ls"]%string) ks with
    | ORet _ (_, s) => Some (is_search s, ed_tty s)
    | _ => None
    end in
  let ks := KCtrl (ch "r") :: keys (str "e") in
  run (ks ++ [KEsc; KCtrl (ch "g"); KNull]) = run ks /\
  match run ks with Some (b, _) => b = true | None => False end /\
  seen (vi_run test_env [] (keys (str "abc") ++ [KEsc; kch "0"; kch "2"; KAlt (ch "x"); kch "x"])) = Some (false, str "c", 0).
Proof.
  assert (G : forall c l, existsb (N.eqb c) l = false -> ~ In c l).
  { intros c l H Hin. assert (existsb (N.eqb c) l = true) by (apply existsb_exists; exists c; split; [exact Hin|apply N.eqb_refl]). congruence. }
  split; [exact I|]. split; [apply G; reflexivity|]. split; [split; [discriminate|apply G; reflexivity]|].
  split; [intros [_ H]; apply H; cbn; tauto|]. split; [exact I|]. split; [apply G; reflexivity|]. split; [exact (fun H => H)|].
  split; [vm_compute; reflexivity|]. split; vm_compute; reflexivity.
Qed.
