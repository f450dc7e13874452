(** Properties C17-C20 and C46: words, cursor classes, common prefixes, prompts,
    BasicCompleter. *)
From Verif Require Import Base Utf8 BufferModel UtilModel UtilSpec UtilProofs CompleteModel Tests.

(** ** C17: default word boundaries. [words_of] lists what a word division
    must satisfy; it determines the words completely. *)
Theorem C17_word_boundaries : forall t, words_of t (get_buffer_words t).
Proof. exact get_buffer_words_ok. Qed.
Print Assumptions C17_word_boundaries.

Theorem C17_word_boundaries_determined : forall t ws, get_buffer_words t = ws <-> words_of t ws.
Proof. exact get_buffer_words_iff. Qed.
Print Assumptions C17_word_boundaries_determined.

Example C17_case : get_buffer_words (str " ab\ c  \d\\ e") = [(1, 6); (9, 14)]
  /\ word_ok (str " ab\ c  \d\\ e") (1, 6).
Proof.
  split; [reflexivity|]. exact (Forall_inv (proj1 (get_buffer_words_ok (str " ab\ c  \d\\ e")))).
Qed.

(** ** C18: cursor classification *)
Theorem C18_cursor_class : forall ws c p, increasing ws ->
  (cpos_get c ws = Val p <-> class_of ws c (class_is p)).
Proof. exact cpos_get_iff. Qed.
Print Assumptions C18_cursor_class.

(** For words that do not touch (as the default ones), the left edge is
    reported exactly at the start of a word. *)
Theorem C18_left_edge : forall ws c i, apart ws -> (class_of ws c (CStart i) <-> at_start ws c i).
Proof. exact apart_class. Qed.
Print Assumptions C18_left_edge.

Theorem C18_valid_index : forall ws c, exists p, cpos_get c ws = Val p /\
  match p with
  | InWord i | OnWordLeftEdge i | OnWordRightEdge i => i < length ws
  | InSpace l r => (forall i, l = Some i -> i < length ws) /\ (forall i, r = Some i -> i < length ws)
  end.
Proof. exact cpos_get_valid. Qed.
Print Assumptions C18_valid_index.

Example C18_case : increasing [(1, 3); (3, 5); (7, 9)] /\ apart [(1, 3); (4, 5)]
  /\ cpos_get 3 [(1, 3); (3, 5); (7, 9)] = Val (OnWordRightEdge 0)
  /\ cpos_get 6 [(1, 3); (3, 5); (7, 9)] = Val (InSpace (Some 1) (Some 2)).
Proof. repeat split; repeat constructor. Qed.

(** ** C19: the common prefix is the longest one *)
Theorem C19_longest_common_prefix : forall s0 s1 l p,
  find_longest_common_prefix (s0 :: s1 :: l) = Some p <->
  p <> [] /\ common_prefix p (s0 :: s1 :: l) /\
  (forall q, common_prefix q (s0 :: s1 :: l) -> length q <= length p).
Proof. exact flcp_some. Qed.
Print Assumptions C19_longest_common_prefix.

Theorem C19_none : forall s0 s1 l, find_longest_common_prefix (s0 :: s1 :: l) = None <->
  ~ (exists c, forall s, In s (s0 :: s1 :: l) -> exists r, s = c :: r).
Proof. exact flcp_none. Qed.
Print Assumptions C19_none.

(** For one candidate the prefix is the candidate itself, for none there is none. *)
Theorem C19_few : forall l, (forall s, find_longest_common_prefix [s] = Some s) /\
  (find_longest_common_prefix l = None /\ length l < 2 -> l = []).
Proof. exact flcp_few. Qed.
Print Assumptions C19_few.

Example C19_case :
  find_longest_common_prefix [str "foobar"; str "foo"; str "fooz"] = Some (str "foo") /\
  find_longest_common_prefix [str "foo"; str "bar"] = None.
Proof. split; reflexivity. Qed.

(** ** C20: prompt width *)
Theorem C20_remove_codes : forall t o, remove_codes t = o <-> stripped t o.
Proof. exact remove_codes_iff. Qed.
Print Assumptions C20_remove_codes.

Theorem C20_no_escape_left : forall t, ~ In c_esc (remove_codes t).
Proof. exact remove_codes_noesc. Qed.
Print Assumptions C20_no_escape_left.

Theorem C20_identity_without_escape : forall t, ~ In c_esc t -> remove_codes t = t.
Proof. exact remove_codes_id. Qed.
Print Assumptions C20_identity_without_escape.

Theorem C20_idempotent : forall t, remove_codes (remove_codes t) = remove_codes t.
Proof. exact remove_codes_idem. Qed.
Print Assumptions C20_idempotent.

Theorem C20_prompt_width : forall U t l o, last_line t l -> stripped l o ->
  last_prompt_line_width U t = u_width U o.
Proof. exact prompt_width_spec. Qed.
Print Assumptions C20_prompt_width.

Example C20_case :
  last_line (str "a" ++ c_nl :: c_esc :: str "[31mb" ++ [c_esc]) (c_esc :: str "[31mb" ++ [c_esc])
  /\ stripped (c_esc :: str "[31mb" ++ [c_esc]) (str "b")
  /\ last_prompt_line_width ascii_uni (str "a" ++ c_nl :: c_esc :: str "[31mb" ++ [c_esc]) = 1.
Proof.
  split; [|split].
  - apply handle_prompt_iff. reflexivity.
  - apply remove_codes_iff. reflexivity.
  - reflexivity.
Qed.

(** ** C46: BasicCompleter *)
Theorem C46_basic_completer : forall ws s r,
  basic_completions ws s = r <-> selects (is_prefix s) ws r.
Proof. exact basic_completions_iff. Qed.
Print Assumptions C46_basic_completer.

Example C46_case : basic_completions [str "foo"; str "bar"; str "fob"; str "foo"] (str "fo")
  = [str "foo"; str "fob"; str "foo"].
Proof. reflexivity. Qed.

(** ** C60: the terminal width used is never 0 *)
Theorem C60_terminal_width : forall sz w, terminal_width sz = Some w <->
  exists n, sz = Some n /\ 0 < w /\ (n = 0 -> w = 80) /\ (n <> 0 -> w = n).
Proof. exact terminal_width_iff. Qed.
Print Assumptions C60_terminal_width.

Example C60_case : terminal_width (Some 0) = Some 80 /\ terminal_width (Some 7) = Some 7.
Proof. split; reflexivity. Qed.
