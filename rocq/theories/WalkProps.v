(** Walking through the history: C73. *)
From Verif Require Import Base BufferModel UtilModel HistoryModel HistorySpec EditorState EditorModel KeymapModel
  ViModel Tests Samples EditorSpec UtilSpec BufferSpec WalkSpec WalkProofs.
Local Open Scope monad_scope.

(** ** C73: Up and Down walk through the offered lines *)

(** In any Emacs session, from the new line: after any walk to place [p] the next
    Up or Down shows the line of place [p + 1] (at most the last) or [p - 1], as
    it is in the history even if a copy of it was edited on the way, with the
    cursor at its end.  Alt-> is left out of the session because it keeps the
    old place (C73_stale_refuted); Ctrl-l and accepting a suggestion are left
    out of the walk because they forget it (C73_forgets_refuted). *)
Theorem C73_emacs : forall E0 pr f ib h w cb ttys s0 l d k s L k' s' p E k1 up d1 k2 s2,
  h_share h = false -> editor_new E0 pr f ib h w cb ttys = ORet tt s0 ->
  ~ In (KAlt (ch ">")) (map snd l) -> run_keys emacs_core l (emacs_new, s0) = ORet d (k, s) ->
  is_search s = false -> ed_loc s = None -> offered (texts h) (data (ed_new s)) L ->
  emacs_walk (length L) (k, s) 0 (k', s') p -> emacs_nav k' k1 = Some up ->
  handle_key emacs_core E k1 (k', s') = ORet d1 (k2, s2) ->
  let p' := if up : bool then Nat.min (length L) (S p) else p - 1 in
  let t' := nth p' (data (ed_new s) :: L) [] in
  d1 = false /\ line_is s2 t' (length t') /\ (p' = 0 -> ed_loc s2 = None).
Proof. exact emacs_walk_shows. Qed.
Print Assumptions C73_emacs.

(** The same in Vi, from normal and from insert mode. *)
Theorem C73_vi : forall E0 pr f ib h w cb ttys s0 E1 l d v s L v' s' p E k1 up d1 v2 s2,
  h_share h = false -> editor_new E0 pr f ib h w cb ttys = ORet tt s0 ->
  (vi_init E1 ;;; run_keys vi_core l) (vi_new, s0) = ORet d (v, s) ->
  is_search s = false -> ed_loc s = None -> offered (texts h) (data (ed_new s)) L ->
  vi_walk (length L) (v, s) 0 (v', s') p -> vi_nav v' k1 = Some up ->
  handle_key vi_core E k1 (v', s') = ORet d1 (v2, s2) ->
  let p' := if up : bool then Nat.min (length L) (S p) else p - 1 in
  let t' := nth p' (data (ed_new s) :: L) [] in
  d1 = false /\ line_is s2 t' (if is_normal (vmode_of v') then length t' - 1 else length t') /\ (p' = 0 -> ed_loc s2 = None).
Proof. exact vi_walk_shows. Qed.
Print Assumptions C73_vi.

(** "ab" offers ab2, ab1 and then xab.  Up; typing Z into ab2; Left; Up; Up; Down; Down
    shows ab2 as it was. *)
Example C73_offered_case : offered (texts (hist_of (map str ["ab1"; "xab"; "q"; "ab2"]%string))) (str "ab") (map str ["ab2"; "ab1"; "xab"]%string).
Proof.
  exists (map str ["ab1"; "ab2"]%string), [str "xab"]. split; [|split; [|reflexivity]]; vm_compute.
  - apply sel_keep; [exists 49%N, []; reflexivity|].
    apply sel_drop; [intros [r [? C]]; discriminate|]. apply sel_drop; [intros [r [? C]]; discriminate|].
    apply sel_keep; [exists 50%N, []; reflexivity|]. apply sel_nil.
  - apply sel_drop; [intros [_ [_ C]]; apply C; exists 49%N, []; reflexivity|].
    apply sel_keep; [split; [exists [120%N], []; reflexivity|split; [discriminate|intros [r [? C]]; discriminate]]|].
    apply sel_drop; [intros [[a [r C]] _]; destruct a as [|? [|? a]]; discriminate|].
    apply sel_drop; [intros [_ [_ C]]; apply C; exists 50%N, []; reflexivity|]. apply sel_nil.
Qed.
Example C73_emacs_case :
  exists s0 k s k' s' k2 s2, sample_new test_env (map str ["ab1"; "xab"; "q"; "ab2"]%string) = ORet tt s0 /\
    run_keys emacs_core (map (pair test_env) (keys (str "ab"))) (emacs_new, s0) = ORet false (k, s) /\
    is_search s = false /\ ed_loc s = None /\ data (ed_new s) = str "ab" /\
    emacs_walk 3 (k, s) 0 (k', s') 2 /\ handle_key emacs_core test_env KDown (k', s') = ORet false (k2, s2) /\
    line_is s2 (str "ab2") 3.
Proof.
  destruct (sample_new test_env (map str ["ab1"; "xab"; "q"; "ab2"]%string)) as [[] s0| | |] eqn:E0; try (vm_compute in E0; discriminate).
  destruct (run_keys emacs_core (map (pair test_env) (keys (str "ab"))) (emacs_new, s0)) as [[|] [k s]| | |] eqn:E1;
    try (vm_compute in E0; injection E0 as <-; vm_compute in E1; discriminate).
  destruct (walk_run emacs_nav okb emacs_core test_env 3 [KUp; kch "Z"; KLeft; KUp; KUp; KDown] (k, s) 0) as [[[k' s'] q]|] eqn:E2;
    [|vm_compute in E0; injection E0 as <-; vm_compute in E1; injection E1 as <- <-; vm_compute in E2; discriminate].
  pose proof (emacs_walk_run _ _ _ _ _ _ E2) as W.
  vm_compute in E0. injection E0 as <-. vm_compute in E1. injection E1 as <- <-. vm_compute in E2. injection E2 as <- <- <-.
  eexists. eexists. eexists. eexists. eexists. eexists. eexists.
  split; [reflexivity|]. split; [vm_compute; reflexivity|]. split; [reflexivity|]. split; [reflexivity|]. split; [reflexivity|].
  split; [exact W|]. split; [vm_compute; reflexivity|]. eexists. split; [vm_compute; reflexivity|]. split; reflexivity.
Qed.
Example C73_vi_case :
  exists s0 v s v' s' v2 s2, sample_new test_env (map str ["ab1"; "xab"; "q"; "ab2"]%string) = ORet tt s0 /\
    (vi_init test_env ;;; run_keys vi_core (map (pair test_env) (keys (str "ab") ++ [KEsc]))) (vi_new, s0) = ORet false (v, s) /\
    is_search s = false /\ ed_loc s = None /\ data (ed_new s) = str "ab" /\
    vi_walk 3 (v, s) 0 (v', s') 3 /\ handle_key vi_core test_env (kch "j") (v', s') = ORet false (v2, s2) /\
    line_is s2 (str "ab1") 2.
Proof.
  destruct (sample_new test_env (map str ["ab1"; "xab"; "q"; "ab2"]%string)) as [[] s0| | |] eqn:E0; try (vm_compute in E0; discriminate).
  destruct ((vi_init test_env ;;; run_keys vi_core (map (pair test_env) (keys (str "ab") ++ [KEsc]))) (vi_new, s0)) as [[|] [v s]| | |] eqn:E1;
    try (vm_compute in E0; injection E0 as <-; vm_compute in E1; discriminate).
  destruct (walk_run vi_nav okb vi_core test_env 3 [kch "k"; kch "x"; KUp; kch "i"; kch "q"; KUp; KEsc; kch "k"] (v, s) 0) as [[[v' s'] q]|] eqn:E2;
    [|vm_compute in E0; injection E0 as <-; vm_compute in E1; injection E1 as <- <-; vm_compute in E2; discriminate].
  pose proof (vi_walk_run _ _ _ _ _ _ E2) as W.
  vm_compute in E0. injection E0 as <-. vm_compute in E1. injection E1 as <- <-. vm_compute in E2. injection E2 as <- <- <-.
  eexists. eexists. eexists. eexists. eexists. eexists. eexists.
  split; [reflexivity|]. split; [vm_compute; reflexivity|]. split; [reflexivity|]. split; [reflexivity|]. split; [reflexivity|].
  split; [exact W|]. split; [vm_compute; reflexivity|]. eexists. split; [vm_compute; reflexivity|]. split; reflexivity.
Qed.

(** With Alt-> in the session: back on the new line, Up goes on from the place
    that was left instead of showing the nearest offered line. *)
Theorem C73_stale_refuted :
  exists h l s0 k s L k2 s2, h_share h = false /\ editor_new test_env (mkPrompt (str "$ ") None) None buf_new h no_fs [] [] = ORet tt s0 /\
    run_keys emacs_core (map (pair test_env) l) (emacs_new, s0) = ORet false (k, s) /\
    is_search s = false /\ ed_loc s = None /\ offered (texts h) (data (ed_new s)) L /\
    handle_key emacs_core test_env KUp (k, s) = ORet false (k2, s2) /\
    ~ exists c, line_is s2 (nth 1 (data (ed_new s) :: L) []) c.
Proof.
  exists (hist_of (map str ["ab1"; "xab"; "q"; "ab2"]%string)), (keys (str "ab") ++ [KUp; KUp; KAlt (ch ">")]).
  eexists. eexists. eexists. exists (map str ["ab2"; "ab1"; "xab"]%string). eexists. eexists.
  split; [reflexivity|]. split; [vm_compute; reflexivity|]. split; [vm_compute; reflexivity|]. split; [reflexivity|]. split; [reflexivity|].
  split; [exact C73_offered_case|]. split; [vm_compute; reflexivity|].
  intros [c [b [H1 [H2 _]]]]. vm_compute in H1. injection H1 as <-. vm_compute in H2. discriminate.
Qed.
Print Assumptions C73_stale_refuted.

(** After Ctrl-l, or Right at the end of the recalled line, Down does not lead back. *)
Theorem C73_forgets_refuted : forall x, In x [KCtrl (ch "l"); KRight] ->
  exists l k s k1 s1 k2 s2 k3 s3,
    emacs_run test_env (map str ["ab1"; "xab"; "q"; "ab2"]%string) l = ORet false (k, s) /\ is_search s = false /\ ed_loc s = None /\
    emacs_walk 3 (k, s) 0 (k1, s1) 1 /\ handle_key emacs_core test_env x (k1, s1) = ORet false (k2, s2) /\
    handle_key emacs_core test_env KDown (k2, s2) = ORet false (k3, s3) /\
    ~ exists c, line_is s3 (data (ed_new s)) c.
Proof.
  intros x Hx. exists (keys (str "ab")).
  destruct (emacs_run test_env (map str ["ab1"; "xab"; "q"; "ab2"]%string) (keys (str "ab"))) as [[|] [k s]| | |] eqn:E1; try (vm_compute in E1; discriminate).
  destruct (walk_run emacs_nav okb emacs_core test_env 3 [KUp] (k, s) 0) as [[[k' s'] q]|] eqn:E2;
    [|vm_compute in E1; injection E1 as <- <-; vm_compute in E2; discriminate].
  pose proof (emacs_walk_run _ _ _ _ _ _ E2) as W.
  vm_compute in E1. injection E1 as <- <-. vm_compute in E2. injection E2 as <- <- <-.
  destruct Hx as [<-|[<-|[]]]; eexists; eexists; eexists; eexists; eexists; eexists; eexists; eexists;
    (split; [reflexivity|]); (split; [reflexivity|]); (split; [reflexivity|]); (split; [exact W|]);
    (split; [vm_compute; reflexivity|]); (split; [vm_compute; reflexivity|]);
    intros [c [b [H1 [H2 _]]]]; vm_compute in H1; injection H1 as <-; vm_compute in H2; discriminate.
Qed.
Print Assumptions C73_forgets_refuted.
