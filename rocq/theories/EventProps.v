(** Completers that get events: C77, C78, C79. *)
From Verif Require Import Base Utf8 BufferModel UtilModel HistoryModel EditorState EditorModel KeymapModel ViModel CompleteModel
  EventModel EventSpec UtilSpec EditorSpec TabSpec EventProofs EventRuns Tests Samples.
Local Open Scope monad_scope.

(** ** C77: a completer that only looks at the editor *)

(** Whatever state it keeps and whatever it does on events, the session is one
    of those the other theorems speak of: the same keys in the same
    surroundings, only with other answers to Tab. *)
Theorem C77_session : forall D K (C : completer D) (core : env -> key -> MK K unit) ks d x s, only_looks C ->
  no_panic C \/ (forall p, run_inputs C core (arrive ks) ((d, x), s) <> OPanic p) ->
  exists ks', Forall2 same_but_answers ks ks' /\
    run_keys core ks' (x, s) = forget (run_inputs C core (arrive ks) ((d, x), s)).
Proof. exact session_same. Qed.
Print Assumptions C77_session.

(** The same for reading a whole line. *)
Theorem C77_line : forall D K (C : completer D) (core : env -> key -> MK K unit) k0 init E p f ib h w cb ttys ks d, only_looks C ->
  no_panic C \/ (forall q, read_line_with C core k0 init E p f ib h w cb ttys (arrive ks) d <> OPanic q) ->
  exists ks', Forall2 same_but_answers ks ks' /\
    read_line core k0 init E p f ib h w cb ttys ks' =
    forget (read_line_with C core k0 init E p f ib h w cb ttys (arrive ks) d).
Proof. exact line_same. Qed.
Print Assumptions C77_line.

(** When reading a key fails, the session ends with that error in the state
    the keys before led to, for every completer. *)
Theorem C77_read_error : forall D K (C : completer D) (core : env -> key -> MK K unit) ks E rest st,
  run_inputs C core (arrive ks ++ (E, None) :: rest) st =
  match run_inputs C core (arrive ks) st with
  | ORet false st' => OErr EOther st'
  | o => o
  end.
Proof. exact read_error. Qed.
Print Assumptions C77_read_error.

Example C77_case :
  let ks := map (pair test_env) [KChar (ch "a"); KChar c_tab] in
  only_looks counting /\ no_panic counting /\
  match run_inputs counting emacs_core (arrive ks ++ [(test_env, None)]) ((0, emacs_new), emacs_ed [] []) with
  | OErr EOther ((2, _), s) => seen (ORet false (tt, s)) = Some (false, str "a**", 3)
  | _ => False
  end.
Proof.
  split; [intros E ev d s d' s' H; injection H as _ <-; reflexivity|].
  split; [split; intros; eexists; reflexivity|]. vm_compute. reflexivity.
Qed.

(** ** C78: the events a completer gets *)

(** For every completer, even one that changes the editor: noting down the
    events changes nothing, and the events are those of the keys in order; of
    a key that ends the session with an error, a beginning of them. *)
Theorem C78_events : forall D K (C : completer D) (core : env -> key -> MK K unit) ks l d x s,
  match run_inputs (noting C) core (arrive ks) (((l, d), x), s) with
  | ORet b (((l', d'), x'), s') =>
      (exists ks1 ks2, ks = ks1 ++ ks2 /\ l' = l ++ flat_map events_of (map snd ks1) /\
         (if b : bool then exists ks0 E, ks1 = ks0 ++ [(E, KChar c_nl)] else ks2 = [])) /\
      run_inputs C core (arrive ks) ((d, x), s) = ORet b ((d', x'), s')
  | OErr e (((l', d'), x'), s') =>
      (exists ks1 E k ks2 e1 e2, ks = ks1 ++ (E, k) :: ks2 /\ events_of k = BeforeKey k :: e1 ++ e2 /\
         l' = l ++ flat_map events_of (map snd ks1) ++ BeforeKey k :: e1) /\
      run_inputs C core (arrive ks) ((d, x), s) = OErr e ((d', x'), s')
  | OPanic p => run_inputs C core (arrive ks) ((d, x), s) = OPanic p
  | OFuel => run_inputs C core (arrive ks) ((d, x), s) = OFuel
  end.
Proof. exact @session_events. Qed.
Print Assumptions C78_events.

Example C78_case :
  match run_inputs (noting counting) emacs_core (arrive (map (pair test_env) [KCtrl (ch "h"); KChar c_tab; KCtrl (ch "c")]))
          ((([], 0), emacs_new), emacs_ed [] []) with
  | OErr EInterrupted (((l, n), _), _) => n = 3 /\
      l = [BeforeKey (KCtrl (ch "h")); AfterKey KBackspace; BeforeKey (KChar c_tab); BeforeComplete; AfterKey (KChar c_tab);
           BeforeKey (KCtrl (ch "c"))]
  | _ => False
  end.
Proof. vm_compute. split; reflexivity. Qed.

(** ** C79: the completer of the example programs *)

Theorem C79_only_looks : forall rd lower cwd, only_looks (comment_completer rd lower cwd).
Proof. exact comment_looks. Qed.
Print Assumptions C79_only_looks.

(** Up to the end of the first word Tab offers nothing. *)
Theorem C79_command : forall K (core : env -> key -> MK K unit) rd lower cwd E x s t c a part w r d o d' x' s',
  line_is s t c -> is_search s = false -> ed_noeol s = false -> ed_hint s = None -> increasing (e_words E t) ->
  at_word (e_words E t) t c a part w r -> ~ past_first_word (e_words E t) c ->
  handle_key_with (comment_completer rd lower cwd) core E (KChar c_tab) ((d, x), s) = ORet o ((d', x'), s') ->
  o = false /\ x' = x /\ line_is s' t c /\ ed_hint s' = None.
Proof. exact comment_command. Qed.
Print Assumptions C79_command.

(** After it Tab completes the word by the file names in the working
    directory (C67), in the way of C29. *)
Theorem C79_file : forall K (core : env -> key -> MK K unit) rd lower dir E x s t c a part w r d l,
  line_is s t c -> is_search s = false -> ed_noeol s = false -> ed_hint s = None -> increasing (e_words E t) ->
  at_word (e_words E t) t c a part w r -> past_first_word (e_words E t) c ->
  filename_completions rd lower (Some dir) true w = Val l ->
  forget (handle_key_with (comment_completer rd lower (Some dir)) core E (KChar c_tab) ((d, x), s)) =
  handle_key core (answering E l) (KChar c_tab) (x, s).
Proof. exact comment_file. Qed.
Print Assumptions C79_file.
Theorem C79_single : forall K (core : env -> key -> MK K unit) rd lower dir E x s t c a part w r d l z o d' x' s',
  line_is s t c -> is_search s = false -> ed_noeol s = false -> ed_hint s = None -> increasing (e_words E t) ->
  at_word (e_words E t) t c a part w r -> past_first_word (e_words E t) c ->
  filename_completions rd lower (Some dir) true w = Val l -> l <> [] -> (forall y, In y l -> y = z) ->
  handle_key_with (comment_completer rd lower (Some dir)) core E (KChar c_tab) ((d, x), s) = ORet o ((d', x'), s') ->
  o = false /\ x' = x /\ line_is s' (a ++ z ++ r) (length (a ++ z)).
Proof. exact comment_single. Qed.
Print Assumptions C79_single.

Example C79_case :
  let rd (p : text) := if text_eqb p (str "/w") then Some [(str "foo", false); (str "bar", false)] else None in
  let C := comment_completer rd (fun t => t) (Some (str "/w")) in
  let run l := run_inputs C emacs_core (arrive (map (pair test_env) l)) ((None, emacs_new), emacs_ed [] []) in
  let line l := match run l with ORet _ (_, s) => seen (ORet false (tt, s)) | _ => None end in
  line (keys (str "fo") ++ [KChar c_tab]) = Some (false, str "fo", 2) /\
  line (keys (str "cat fo") ++ [KChar c_tab]) = Some (false, str "cat foo", 7) /\
  line (keys (str "cat fo") ++ repeat KLeft 3 ++ [KChar c_tab]) = Some (false, str "cat fo", 3) /\
  past_first_word (get_buffer_words (str "cat fo")) 6 /\ ~ past_first_word (get_buffer_words (str "cat fo")) 3 /\
  filename_completions rd (fun t => t) (Some (str "/w")) true (str "fo") = Val [str "foo"].
Proof. vm_compute. repeat split; lia. Qed.
