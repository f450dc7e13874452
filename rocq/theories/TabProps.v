(** C29: Tab completion. *)
From Verif Require Import Base BufferModel UtilModel HistoryModel EditorState EditorModel KeymapModel ViModel
  BufferSpec UtilSpec UtilProofs HistorySpec EditorSpec TabSpec TabProofs Tests Samples.

(** ** C29 *)
(** The word and the parts around it exist for every line and cursor. *)
Theorem C29_word : forall t c, c <= length t -> exists a part w r, at_word (get_buffer_words t) t c a part w r.
Proof. exact word_exists. Qed.
Print Assumptions C29_word.

(** The list of choices is determined by the candidates. *)
Theorem C29_choices : forall l, exists l', choices l l' /\ forall l'', choices l l'' -> l'' = l'.
Proof. exact choices_exist. Qed.
Print Assumptions C29_choices.

Theorem C29_none : forall K (core : env -> key -> MK K unit) E x s t c a part w r d x' s',
  line_is s t c -> is_search s = false -> ed_noeol s = false -> ed_hint s = None -> increasing (e_words E t) ->
  at_word (e_words E t) t c a part w r -> e_complete E w = [] ->
  handle_key core E (KChar c_tab) (x, s) = ORet d (x', s') ->
  d = false /\ x' = x /\ line_is s' t c.
Proof. exact tab_none. Qed.
Print Assumptions C29_none.

Example C29_none_case :
  exists x s s', line_is s (str "ls fo") 5 /\ is_search s = false /\ ed_noeol s = false /\ ed_hint s = None /\
    at_word (e_words test_env (str "ls fo")) (str "ls fo") 5 (str "ls ") (str "fo") (str "fo") [] /\
    e_complete test_env (str "fo") = [] /\
    handle_key emacs_core test_env (KChar c_tab) (x, s) = ORet false (x, s').
Proof.
  destruct (emacs_run test_env [] (keys (str "ls fo"))) as [[|] [x0 s]| | |] eqn:E0;
    try (vm_compute in E0; discriminate).
  destruct (handle_key emacs_core test_env (KChar c_tab) (x0, s)) as [[|] [x s']| | |] eqn:E1;
    try (vm_compute in E0; injection E0 as <- <-; vm_compute in E1; discriminate).
  assert (x = x0) by (vm_compute in E0; injection E0 as <- <-; vm_compute in E1; injection E1 as <- <-; reflexivity). subst x.
  exists x0, s, s'. vm_compute in E0. injection E0 as <- <-.
  split; [eexists; vm_compute; repeat split|]. do 3 (split; [reflexivity|]).
  split; [|split; [reflexivity|exact E1]].
  split; [reflexivity|]. split; [reflexivity|]. left. exists []. split; [vm_compute; auto|]. split; [discriminate|].
  split; [reflexivity|]. exists []. reflexivity.
Qed.

(** One candidate, perhaps offered several times: it replaces what precedes
    the cursor of the word. *)
Theorem C29_single : forall K (core : env -> key -> MK K unit) E x s t c a part w r z d x' s',
  line_is s t c -> is_search s = false -> ed_noeol s = false -> ed_hint s = None -> increasing (e_words E t) ->
  at_word (e_words E t) t c a part w r -> e_complete E w <> [] -> (forall y, In y (e_complete E w) -> y = z) ->
  handle_key core E (KChar c_tab) (x, s) = ORet d (x', s') ->
  d = false /\ x' = x /\ line_is s' (a ++ z ++ r) (length (a ++ z)).
Proof. exact tab_single. Qed.
Print Assumptions C29_single.

Example C29_single_case :
  let E := mkEnv ascii_uni (Some 80) true (Some 80) get_buffer_words (fun w => if text_eqb w (str "fo") then [str "foo"; str "foo"] else []) in
  exists x s s', line_is s (str "ls fo -l") 5 /\ is_search s = false /\ ed_noeol s = false /\ ed_hint s = None /\
    at_word (get_buffer_words (str "ls fo -l")) (str "ls fo -l") 5 (str "ls ") (str "fo") (str "fo") (str " -l") /\
    e_complete E (str "fo") = [str "foo"; str "foo"] /\
    handle_key emacs_core E (KChar c_tab) (x, s) = ORet false (x, s').
Proof.
  intro E.
  destruct (emacs_run E [] (keys (str "ls fo -l") ++ repeat KLeft 3)) as [[|] [x0 s]| | |] eqn:E0;
    try (vm_compute in E0; discriminate).
  destruct (handle_key emacs_core E (KChar c_tab) (x0, s)) as [[|] [x s']| | |] eqn:E1;
    try (vm_compute in E0; injection E0 as <- <-; vm_compute in E1; discriminate).
  assert (x = x0) by (vm_compute in E0; injection E0 as <- <-; vm_compute in E1; injection E1 as <- <-; reflexivity). subst x.
  exists x0, s, s'. vm_compute in E0. injection E0 as <- <-.
  split; [eexists; vm_compute; repeat split|]. do 3 (split; [reflexivity|]).
  split; [|split; [reflexivity|exact E1]].
  split; [reflexivity|]. split; [reflexivity|]. left. exists []. split; [vm_compute; auto|]. split; [discriminate|].
  split; [reflexivity|]. exists (str " -l"). reflexivity.
Qed.

(** Several candidates: their longest common prefix [p] replaces it if [p] is
    a proper extension of the word; otherwise the line stays and every choice
    is written to the terminal, padded with spaces. *)
Theorem C29_several : forall K (core : env -> key -> MK K unit) E x s t c a part w r l p d x' s',
  line_is s t c -> is_search s = false -> ed_noeol s = false -> ed_hint s = None -> increasing (e_words E t) ->
  at_word (e_words E t) t c a part w r -> choices (e_complete E w) l -> 1 < length l -> longest_common l p ->
  handle_key core E (KChar c_tab) (x, s) = ORet d (x', s') ->
  d = false /\ x' = x /\
  (extends w p -> line_is s' (a ++ p ++ r) (length (a ++ p)) /\ ed_hint s' = None) /\
  (~ extends w p -> line_is s' t c /\ ed_hint s' = Some (l, None) /\
     exists toks, ed_tty s' = ed_tty s ++ toks /\
       forall y, In y l -> exists n, In (TStr (y ++ repeat c_sp n)) toks).
Proof. exact tab_several. Qed.
Print Assumptions C29_several.

Example C29_several_case :
  let E := mkEnv ascii_uni (Some 80) true (Some 80) get_buffer_words (fun _ => [str "food"; str "foot"]) in
  exists x s s', line_is s (str "ls f") 4 /\ is_search s = false /\ ed_noeol s = false /\ ed_hint s = None /\
    at_word (get_buffer_words (str "ls f")) (str "ls f") 4 (str "ls ") (str "f") (str "f") [] /\
    choices (e_complete E (str "f")) [str "food"; str "foot"] /\
    longest_common [str "food"; str "foot"] (str "foo") /\ extends (str "f") (str "foo") /\
    handle_key emacs_core E (KChar c_tab) (x, s) = ORet false (x, s').
Proof.
  intro E.
  destruct (emacs_run E [] (keys (str "ls f"))) as [[|] [x0 s]| | |] eqn:E0;
    try (vm_compute in E0; discriminate).
  destruct (handle_key emacs_core E (KChar c_tab) (x0, s)) as [[|] [x s']| | |] eqn:E1;
    try (vm_compute in E0; injection E0 as <- <-; vm_compute in E1; discriminate).
  assert (x = x0) by (vm_compute in E0; injection E0 as <- <-; vm_compute in E1; injection E1 as <- <-; reflexivity). subst x.
  exists x0, s, s'. vm_compute in E0. injection E0 as <- <-.
  split; [eexists; vm_compute; repeat split|]. do 3 (split; [reflexivity|]).
  split; [|split; [|split; [|split; [|exact E1]]]].
  - split; [reflexivity|]. split; [reflexivity|]. left. exists []. split; [vm_compute; auto|]. split; [discriminate|].
    split; [reflexivity|]. exists []. reflexivity.
  - exact (choices_ok [str "food"; str "foot"]).
  - split.
    + intros y [<-|[<-|[]]]; [exists (str "d")|exists (str "t")]; reflexivity.
    + intros q Hq. destruct (Hq (str "food")) as [u Hu]; [cbn; auto|]. destruct (Hq (str "foot")) as [v Hv]; [cbn; auto|].
      do 3 (destruct q as [|? q]; [cbn; lia|]). destruct q as [|y q]; [cbn; lia|].
      vm_compute in Hu, Hv. injection Hu as _ _ _ Hu _. injection Hv as _ _ _ Hv _. subst y. discriminate.
  - exists (ch "o"), (str "o"). reflexivity.
Qed.

(** With the choices shown, [n + 1] Tabs leave choice [n mod length comps] in
    place of the word.  Missing from the full claim: choices that are not one
    word of the default division, except where the word is the whole line. *)
Theorem C29_cycle_partial : forall K (core : env -> key -> MK K unit) x s t c a part w r comps l n z d x' s',
  line_is s t c -> is_search s = false -> ed_noeol s = false -> ed_hint s = Some (comps, None) ->
  at_word (get_buffer_words t) t c a part w r ->
  (forall y, In y comps -> single_word y) \/ (a = [] /\ r = []) ->
  map snd l = repeat (KChar c_tab) (S n) -> (forall p, In p l -> e_words (fst p) = get_buffer_words) ->
  nth_error comps (n mod length comps) = Some z ->
  run_keys core l (x, s) = ORet d (x', s') ->
  d = false /\ x' = x /\ line_is s' (a ++ z ++ r) (length (a ++ z)).
Proof. exact tab_cycle. Qed.
Print Assumptions C29_cycle_partial.

Example C29_cycle_case :
  let E := mkEnv ascii_uni (Some 80) true (Some 80) get_buffer_words (fun _ => [str "fd"; str "ft"]) in
  exists x s s', line_is s (str "ls f -l") 4 /\ is_search s = false /\ ed_noeol s = false /\
    ed_hint s = Some ([str "fd"; str "ft"], None) /\
    at_word (get_buffer_words (str "ls f -l")) (str "ls f -l") 4 (str "ls ") (str "f") (str "f") (str " -l") /\
    (forall y, In y [str "fd"; str "ft"] -> single_word y) /\
    run_keys emacs_core (map (pair E) (repeat (KChar c_tab) 4)) (x, s) = ORet false (x, s').
Proof.
  intro E.
  destruct (emacs_run E [] (keys (str "ls f -l") ++ repeat KLeft 3 ++ [KChar c_tab])) as [[|] [x0 s]| | |] eqn:E0;
    try (vm_compute in E0; discriminate).
  destruct (run_keys emacs_core (map (pair E) (repeat (KChar c_tab) 4)) (x0, s)) as [[|] [x s']| | |] eqn:E1;
    try (vm_compute in E0; injection E0 as <- <-; vm_compute in E1; discriminate).
  assert (x = x0) by (vm_compute in E0; injection E0 as <- <-; vm_compute in E1; injection E1 as <- <-; reflexivity). subst x.
  exists x0, s, s'. vm_compute in E0. injection E0 as <- <-.
  split; [eexists; vm_compute; repeat split|]. do 3 (split; [reflexivity|]).
  split; [|split; [|exact E1]].
  - split; [reflexivity|]. split; [reflexivity|]. left. exists []. split; [vm_compute; auto|]. split; [discriminate|].
    split; [reflexivity|]. exists (str " -l"). reflexivity.
  - intros y [<-|[<-|[]]]; exact (get_buffer_words_ok _).
Qed.

(** After a word, choices holding a space are not replaced whole: the second
    Tab on "x " leaves "x a c d". *)
Theorem C29_refuted :
  let E := mkEnv ascii_uni (Some 80) true (Some 80) get_buffer_words (fun _ => [str "a b"; str "c d"]) in
  exists x s s', line_is s (str "x ") 2 /\ is_search s = false /\ ed_noeol s = false /\
    ed_hint s = Some ([str "a b"; str "c d"], None) /\
    at_word (get_buffer_words (str "x ")) (str "x ") 2 (str "x ") [] [] [] /\
    run_keys emacs_core (map (pair E) (repeat (KChar c_tab) 2)) (x, s) = ORet false (x, s') /\
    line_is s' (str "x a c d") 7.
Proof.
  intro E.
  destruct (emacs_run E [] (keys (str "x ") ++ [KChar c_tab])) as [[|] [x0 s]| | |] eqn:E0;
    try (vm_compute in E0; discriminate).
  destruct (run_keys emacs_core (map (pair E) (repeat (KChar c_tab) 2)) (x0, s)) as [[|] [x s']| | |] eqn:E1;
    try (vm_compute in E0; injection E0 as <- <-; vm_compute in E1; discriminate).
  assert (x = x0) by (vm_compute in E0; injection E0 as <- <-; vm_compute in E1; injection E1 as <- <-; reflexivity). subst x.
  exists x0, s, s'. vm_compute in E0. injection E0 as <- <-. vm_compute in E1. injection E1 as <-.
  split; [eexists; vm_compute; repeat split|]. do 3 (split; [reflexivity|]).
  split; [|split; [reflexivity|eexists; vm_compute; repeat split]].
  split; [reflexivity|]. split; [reflexivity|]. right. split; [|split; reflexivity].
  intros s e [K|[]] [_ K2]. injection K as <- <-. lia.
Qed.
Print Assumptions C29_refuted.
