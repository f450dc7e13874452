(** Properties of [.] (src/keymap/vi.rs, [repeat]): C72. *)
From Verif Require Import Base BufferModel UtilModel HistoryModel EditorState EditorModel KeymapModel
  ViModel EditorSpec Tests Samples ViSpec ViRepeat ViCommands ViInsert ViDotSpec ViDot.
Local Open Scope monad_scope.

(** ** C72: [.] repeats the last change

    From any normal-mode state, any sequence of changes, repetitions by [.] with or without a count,
    motions and [u] does what carrying out the remembered change each time would do.  Missing from the
    full statement: a change by [dd], [cc], [C] or [d0] and the count of a change by [f], [t], [F] and
    [T], for which it is false (see the refutations below); and [~]. *)
Theorem C72_partial : forall U v s t c ks t' c' l d v' s', ready v s t c -> story U t c None ks t' c' ->
  map snd l = ks -> Forall (fun x => e_uni (fst x) = U) l -> run_keys vi_core l (v, s) = ORet d (v', s') ->
  d = false /\ ready v' s' t' c'.
Proof. exact vi_story. Qed.
Print Assumptions C72_partial.

(** A story: [2x], a motion, [.], [3.], [u], an insertion with a count, a motion and [.]. *)
Example C72_story :
  story ascii_uni (str "abcdefgh") 0 None
    (keys (str "2x") ++ keys (str "l") ++ keys (str ".") ++ keys (str "3.u") ++
     (keys (str "2ixy") ++ [KEsc]) ++ keys (str "0") ++ keys (str ".") ++ [])
    (str "xyxycfgxyxyh") 3.
Proof.
  assert (D2 : count (keys (str "2")) 2)
    by (apply (count_digits (ch "2") []); [split; vm_compute; discriminate|discriminate|constructor]).
  assert (D3 : count (keys (str "3")) 3)
    by (apply (count_digits (ch "3") []); [split; vm_compute; discriminate|discriminate|constructor]).
  assert (T : Forall typed (keys (str "xy"))) by (repeat constructor; discriminate).
  apply so_act with (t1 := str "cdefgh") (c1 := 0) (r1 := Some ([kch "x"], 2%N)).
  { apply ac_change with (n := 2%N); [apply (gv_front (keys (str "2")) 2 [kch "x"] D2)|].
    apply (cg_x _ _ 0 2 (kch "x") (str "cdefgh")); [left; reflexivity|reflexivity]. }
  apply so_move with (c1 := 1).
  { apply (go_right ascii_uni (str "cdefgh") 0 [] 1 (kch "l")); [constructor|left; reflexivity]. }
  apply so_act with (t1 := str "cfgh") (c1 := 1) (r1 := Some ([kch "x"], 2%N)).
  { apply ac_again. apply (cg_x _ _ 1 2 (kch "x") (str "cfgh")); [left; reflexivity|reflexivity]. }
  change (keys (str "3.u") ++ ?r) with (keys (str "3.") ++ kch "u" :: r).
  apply so_undo with (t1 := str "c") (c1 := 0) (r1 := Some ([kch "x"], 3%N)); [|discriminate|].
  { apply (ac_again_counted _ _ 1 (keys (str "3")) [kch "x"] 2 3); [exact D3|discriminate|].
    apply (cg_x _ _ 1 3 (kch "x") (str "c")); [left; reflexivity|reflexivity]. }
  apply so_act with (t1 := str "cfgxyxyh") (c1 := 6) (r1 := Some (kch "i" :: keys (str "xy") ++ [KEsc], 2%N)).
  { apply ac_change with (n := 2%N).
    - apply (gv_front (keys (str "2")) 2 (kch "i" :: keys (str "xy") ++ [KEsc]) D2).
    - apply (cg_insert _ _ 3 2 (kch "i") (str "cfg", str "h") 2 (keys (str "xy")) (str "cfgxyxy") (str "h"));
        [exact (ia_i (str "cfgh") 3 2)|discriminate|exact T|reflexivity]. }
  apply so_move with (c1 := 0); [apply go_zero|].
  apply so_act with (t1 := str "xyxycfgxyxyh") (c1 := 3) (r1 := Some (kch "i" :: keys (str "xy") ++ [KEsc], 2%N)).
  { apply ac_again.
    apply (cg_insert _ _ 0 2 (kch "i") ([], str "cfgxyxyh") 2 (keys (str "xy")) (str "xyxy") (str "cfgxyxyh"));
      [exact (ia_i (str "cfgxyxyh") 0 2)|discriminate|exact T|reflexivity]. }
  apply so_end.
Qed.

Example C72_case :
  exists v s v' s', ready v s (str "abcdefgh") 0 /\
    run_keys vi_core (map (pair test_env)
      (keys (str "2x") ++ keys (str "l") ++ keys (str ".") ++ keys (str "3.u") ++
       (keys (str "2ixy") ++ [KEsc]) ++ keys (str "0") ++ keys (str ".") ++ [])) (v, s) = ORet false (v', s') /\
    ready v' s' (str "xyxycfgxyxyh") 3.
Proof. apply (ready_then test_env [] (keys (str "abcdefgh") ++ [KEsc; kch "0"])). vm_compute. reflexivity. Qed.

(** A deletion and a change up to a searched character, repeated. *)
Example C72_operators :
  story ascii_uni (str "a,b,c,d") 0 None
    (keys (str "df,") ++ keys (str ".") ++ (keys (str "c$xy") ++ [KEsc]) ++ keys (str ".") ++ []) (str "xxy") 2 /\
  seen (vi_run test_env [] (keys (str "a,b,c,d") ++ [KEsc; kch "0"] ++
    (keys (str "df,") ++ keys (str ".") ++ (keys (str "c$xy") ++ [KEsc]) ++ keys (str ".") ++ []))) =
    Some (false, str "xxy", 2).
Proof.
  split; [|vm_compute; reflexivity].
  assert (T : Forall typed (keys (str "xy"))) by (repeat constructor; discriminate).
  assert (X : forall k x, [kch "f"; kch ","] = [k; KChar x] -> x <> c_tab /\ x <> c_nl)
    by (intros k x E; injection E as <- <-; split; discriminate).
  assert (N : forall (a : char) r, nth_right (a :: ch "," :: r) 0 (ch ",") 1 1).
  { intros a r. exists [a], [], r. repeat split. }
  apply so_act with (t1 := str "b,c,d") (c1 := 0) (r1 := Some (keys (str "df,"), 1%N)).
  { apply ac_change with (n := 1%N); [apply (gv_front [] 1 (keys (str "df,"))); constructor|].
    apply (cg_d ascii_uni (str "a,b,c,d") 0 1 [kch "f"; kch ","] 0 (1 + 1) (str "b,c,d")); [|reflexivity].
    apply ob_span; [|discriminate|exact X]. apply span_f. apply N. }
  apply so_act with (t1 := str "c,d") (c1 := 0) (r1 := Some (keys (str "df,"), 1%N)).
  { apply ac_again.
    apply (cg_d ascii_uni (str "b,c,d") 0 1 [kch "f"; kch ","] 0 (1 + 1) (str "c,d")); [|reflexivity].
    apply ob_span; [|discriminate|exact X]. apply span_f. apply N. }
  apply so_act with (t1 := str "xy") (c1 := 1) (r1 := Some (kch "c" :: [kch "$"] ++ keys (str "xy") ++ [KEsc], 1%N)).
  { apply ac_change with (n := 1%N); [apply (gv_front [] 1 (kch "c" :: [kch "$"] ++ keys (str "xy") ++ [KEsc])); constructor|].
    apply (cg_c ascii_uni (str "c,d") 0 1 [kch "$"] 0 3 (keys (str "xy")) (str "xy") []); [|exact T|reflexivity].
    apply ob_span; [apply (span_end (str "c,d") 0 1)|discriminate|discriminate]. }
  apply so_act with (t1 := str "xxy") (c1 := 2) (r1 := Some (kch "c" :: [kch "$"] ++ keys (str "xy") ++ [KEsc], 1%N)).
  { apply ac_again.
    apply (cg_c ascii_uni (str "xy") 1 1 [kch "$"] 1 2 (keys (str "xy")) (str "xxy") []); [|exact T|reflexivity].
    apply ob_span; [apply (span_end (str "xy") 1 1)|discriminate|discriminate]. }
  apply so_end.
Qed.

(** The count of [d2fx] is forgotten: [.] deletes up to the next [x], not the second one. *)
Theorem C72_find_refuted : exists v s v1 s1 v2 s2, ready v s (str "axbxcxdxexfx") 0 /\
  run_keys vi_core (map (pair test_env) (keys (str "d2fx."))) (v, s) = ORet false (v1, s1) /\
  ready v1 s1 (str "dxexfx") 0 /\
  run_keys vi_core (map (pair test_env) (keys (str "d2fxd2fx"))) (v, s) = ORet false (v2, s2) /\
  ready v2 s2 (str "exfx") 0.
Proof. exact vi_dot_find. Qed.
Print Assumptions C72_find_refuted.

(** After [d0], [.] is stuck: its default count of 1 and the [0] make 10, and the deletion waits for a
    motion. *)
Theorem C72_zero_refuted : exists v s v1 s1, ready v s (str "abc def") 6 /\
  run_keys vi_core (map (pair test_env) (keys (str "d0."))) (v, s) = ORet false (v1, s1) /\
  vmode_of v1 <> MNormal /\ v_count v1 = 10%N /\
  exists v2 s2, run_keys vi_core (map (pair test_env) (keys (str "x"))) (v1, s1) = ORet false (v2, s2) /\
    line_is s2 (str "f") 0.
Proof. exact vi_dot_zero. Qed.
Print Assumptions C72_zero_refuted.

(** [dd] is not remembered: after [x], [dd] and [u], [.] repeats the [x]. *)
Theorem C72_line_refuted : exists v s v1 s1 v2 s2, ready v s (str "abc def") 0 /\
  run_keys vi_core (map (pair test_env) (keys (str "xddu."))) (v, s) = ORet false (v1, s1) /\
  ready v1 s1 (str "bc de") 4 /\
  run_keys vi_core (map (pair test_env) (keys (str "xddudd"))) (v, s) = ORet false (v2, s2) /\
  ready v2 s2 [] 0.
Proof. exact vi_dot_dd. Qed.
Print Assumptions C72_line_refuted.

(** Nor is [cc]: [.] types its text where the cursor is instead of changing the line. *)
Theorem C72_cc_refuted : exists v s v1 s1 v2 s2, ready v s (str "abc") 0 /\
  run_keys vi_core (map (pair test_env) (keys (str "ccxy") ++ [KEsc; kch "0"; kch "."])) (v, s) = ORet false (v1, s1) /\
  ready v1 s1 (str "xyxy") 1 /\
  run_keys vi_core (map (pair test_env) (keys (str "ccxy") ++ KEsc :: kch "0" :: keys (str "ccxy") ++ [KEsc])) (v, s) =
    ORet false (v2, s2) /\
  ready v2 s2 (str "xy") 1.
Proof. exact vi_dot_cc. Qed.
Print Assumptions C72_cc_refuted.

(** After [C], [.] leaves the editor in insert mode. *)
Theorem C72_C_refuted : exists v s v1 s1, ready v s (str "abc def") 0 /\
  run_keys vi_core (map (pair test_env) (keys (str "xwCxy") ++ [KEsc; kch "0"; kch "."])) (v, s) = ORet false (v1, s1) /\
  vmode_of v1 = MInsert.
Proof. exact vi_dot_C. Qed.
Print Assumptions C72_C_refuted.
