(** Vi sessions that cannot panic: C26, and C28 for them. *)
From Verif Require Import Base Utf8 BufferModel UtilModel UtilSpec UtilProofs HistoryModel HistorySpec EditorState EditorModel
  KeymapModel ViModel Tests Samples SafeSpec SafeProps SafeViSpec SafeViCore InterruptProofs.
Local Open Scope monad_scope.

(** ** C26: Vi sessions never panic

    Missing from the full claim: as for C25 the text is single-byte, or free
    of newline and backslash (both, if the incremental search is used), the
    history is not shared and the terminal does not report width 0; and every
    key is [key_careful] in the state it is typed in, which excludes the six
    kinds of step refuted below.  Then the only possible panic
    is the wrap of a 16-bit line count. *)
Theorem C26_partial : forall ascii flat srch, fits ascii flat srch ->
  forall E p f ib h w cb ttys keys q,
  ok_env ascii flat srch E ->
  Forall (fun ek => ok_env ascii flat srch (fst ek) /\ ok_case ascii flat srch (fst ek) /\ ok_key ascii flat srch (snd ek)) keys ->
  h_share h = false -> Forall (ok_text ascii flat srch) (texts h) -> ok_text ascii flat srch (data ib) ->
  actions ib = [] -> undone ib = [] -> e_ttywidth E <> Some 0 -> (srch = true -> pr_vi p = None) ->
  (forall s v s', editor_new E p f ib h w cb ttys = ORet tt s -> vi_init E (vi_new, s) = ORet tt (v, s') ->
     keys_careful keys v s') ->
  vi_read_line E p f ib h w cb ttys keys = OPanic q -> q = PU16.
Proof. exact vi_session_safe. Qed.
Print Assumptions C26_partial.

(** The conditions on the surroundings hold for one column per character and
    the case change of ASCII letters. *)
Example C26_env_case : forall flat, ok_env true flat false test_env /\ ok_case true flat false test_env.
Proof.
  intro flat. split; [exact (C25_env_case true flat false)|].
  intros c [H1 [H2 H3]]. specialize (H1 eq_refl).
  split; (constructor; [|constructor]); cbn -[N.add N.sub N.leb N.ltb c_nl c_bs].
  - destruct ((97 <=? c)%N && (c <=? 122)%N) eqn:Ec; [|split; [intros _; exact H1|split; [exact H2|discriminate]]].
    apply andb_prop in Ec as [K1 K2]. apply N.leb_le in K1, K2. split; [intros _; lia|]. split; [|discriminate].
    intros _. unfold c_nl, c_bs. split; lia.
  - destruct ((65 <=? c)%N && (c <=? 90)%N) eqn:Ec; [|split; [intros _; exact H1|split; [exact H2|discriminate]]].
    apply andb_prop in Ec as [K1 K2]. apply N.leb_le in K1, K2. split; [intros _; lia|]. split; [|discriminate].
    intros _. unfold c_nl, c_bs. split; lia.
Qed.

(** A session with a deletion by [f], an insertion and a repetition. *)
Example C26_case :
  let ks := keys (str "abcb") ++ [KEsc] ++ keys (str "0dfbix") ++ [KEsc] ++ keys (str ".") ++ [KChar c_nl] in
  fits true true false /\ Forall (ok_key true true false) ks /\
  (forall s v s', sample_new test_env [str "abc"] = ORet tt s -> vi_init test_env (vi_new, s) = ORet tt (v, s') ->
     keys_careful (map (pair test_env) ks) v s') /\
  seen (vi_run test_env [str "abc"] ks) = Some (true, str "xxcb", 3).
Proof.
  intro ks. split; [split; [left; reflexivity|discriminate]|].
  split; [unfold ks; vm_compute; repeat (constructor; [first [exact I | left; reflexivity | right; split; discriminate
    | right; left; reflexivity | right; right; repeat split; intros; discriminate || auto]|]); constructor|].
  split; [|vm_compute; reflexivity].
  intros s v s' Hs Hv. vm_compute in Hs. injection Hs as <-. vm_compute in Hv. injection Hv as <- <-.
  unfold ks. session_concrete 1.
Qed.

(** A session that searches the history from insert and from normal mode,
    edits the search term with commands, takes over the line found and
    repeats the last insertion in it. *)
Example C26_search_case :
  let h := [str "b b"; str "one b"] in
  let ks := [kch "b"; KCtrl (ch "r"); KEsc] ++ keys (str "dw") ++ [KCtrl (ch "s")] ++ keys (str "ab") ++
            [KRight; KEsc; kch "."; KChar c_nl] in
  fits true true true /\ Forall (ok_key true true true) ks /\
  (forall s v s', sample_new test_env h = ORet tt s -> vi_init test_env (vi_new, s) = ORet tt (v, s') ->
     keys_careful (map (pair test_env) ks) v s') /\
  seen (vi_run test_env h ks) = Some (true, str "one bb", 5).
Proof.
  intros h ks. split; [split; [left; reflexivity|auto]|].
  split; [unfold ks; vm_compute; repeat (constructor; [first [exact I | left; reflexivity
    | right; left; reflexivity | right; right; repeat split; intros; discriminate || auto]|]); constructor|].
  split; [|vm_compute; reflexivity].
  intros s v s' Hs Hv. vm_compute in Hs. injection Hs as <-. vm_compute in Hv. injection Hv as <- <-.
  unfold ks. session_concrete 1.
Qed.

(** The full claim is false, in six ways.

    Right on an empty line in normal mode with a suggestion. *)
Theorem C26_right_refuted : exists h ks, h_share h = false /\ Forall (fun ek => fst ek = test_env) ks /\
  vi_read_line test_env (mkPrompt (str "$ ") None) None buf_new h no_fs [] [] ks = OPanic PSub.
Proof.
  exists (hist_of [[]]), (map (pair test_env) [KEsc; KUp; KRight]).
  split; [reflexivity|]. split; [repeat (constructor; [reflexivity|]); constructor|]. vm_compute. reflexivity.
Qed.
Print Assumptions C26_right_refuted.

(** [dfx] on an empty line; likewise after [d] End, which leaves the cursor
    behind the text, with [f], [ge] or [;]. *)
Theorem C26_find_refuted : exists ks1 ks2 ks3 ks4,
  Forall (fun ks => vi_read_line test_env (mkPrompt (str "$ ") None) None buf_new (hist_of []) no_fs [] []
                      (map (pair test_env) ks) = OPanic PDrain) [ks1; ks2; ks3; ks4] /\
  ks1 = KEsc :: keys (str "dfx") /\
  ks2 = keys (str "abc") ++ [KEsc; kch "d"; KEnd] ++ keys (str "fx") /\
  ks3 = keys (str "abc") ++ [KEsc; kch "d"; KEnd] ++ keys (str "ge") /\
  ks4 = keys (str "abc") ++ [KEsc] ++ keys (str "fzd") ++ [KEnd; kch ";"].
Proof.
  do 4 eexists. split; [|repeat split].
  repeat (constructor; [vm_compute; reflexivity|]). constructor.
Qed.
Print Assumptions C26_find_refuted.

(** Tab between [d] and its movement may shorten the line. *)
Theorem C26_tab_refuted : exists E ks, ok_env true true false E /\
  vi_read_line E (mkPrompt (str "$ ") None) None buf_new (hist_of []) no_fs [] [] (map (pair E) ks) = OPanic PDrain /\
  ks = keys (str "abcdef") ++ [KEsc; kch "d"; KChar c_tab; kch "h"].
Proof.
  exists (mkEnv ascii_uni (Some 80) true (Some 80) get_buffer_words (fun _ => [str "z"])),
    (keys (str "abcdef") ++ [KEsc; kch "d"; KChar c_tab; kch "h"]).
  split; [|split; [vm_compute; reflexivity|reflexivity]].
  destruct (C25_env_case true true false) as [K1 [K2 _]]. split; [exact K1|split; [exact K2|]].
  intros w _. constructor; [|constructor]. constructor; [|constructor]. vm_compute. repeat split; intros; discriminate || auto.
Qed.
Print Assumptions C26_tab_refuted.

(** A search started between [d] and its movement shows the line being
    written in place of the history entry that [d] was typed in. *)
Theorem C26_search_refuted : exists ks,
  vi_read_line test_env (mkPrompt (str "$ ") None) None buf_new (hist_of [str "abcdef"]) no_fs [] [] (map (pair test_env) ks) = OPanic PDrain /\
  ks = [KEsc; kch "k"; kch "$"; kch "d"; KCtrl (ch "r"); kch "h"].
Proof. eexists. split; [|reflexivity]. vm_compute. reflexivity. Qed.
Print Assumptions C26_search_refuted.

(** A repetition types the text inserted by [cc] as commands. *)
Theorem C26_repeat_refuted : exists ks,
  vi_read_line test_env (mkPrompt (str "$ ") None) None buf_new (hist_of []) no_fs [] [] (map (pair test_env) ks) = OPanic PDrain /\
  ks = keys (str "abc") ++ [KEsc] ++ keys (str "xccDdfx") ++ [KEsc] ++ keys (str "0.").
Proof. eexists. split; [|reflexivity]. vm_compute. reflexivity. Qed.
Print Assumptions C26_repeat_refuted.

(** [~] on an empty line when the terminal cannot be written to: the error of
    the redraw is turned into a panic. *)
Theorem C26_tilde_refuted : exists E, e_wok E = false /\
  vi_read_line test_env (mkPrompt (str "$ ") None) None buf_new (hist_of []) no_fs [] []
    [(test_env, KEsc); (E, kch "~")] = OPanic PUnwrap.
Proof.
  exists (mkEnv ascii_uni (Some 80) false (Some 80) get_buffer_words (fun _ => [])).
  split; [reflexivity|]. vm_compute. reflexivity.
Qed.
Print Assumptions C26_tilde_refuted.

(** ** C28: Ctrl-C and Ctrl-D close every session that meets the conditions of C26 *)
Theorem C28_vi_partial : forall ascii flat srch, fits ascii flat srch ->
  forall E p f ib h w cb ttys s l d v s' E',
  ok_env ascii flat srch E ->
  Forall (fun ek => ok_env ascii flat srch (fst ek) /\ ok_case ascii flat srch (fst ek) /\ ok_key ascii flat srch (snd ek)) l ->
  h_share h = false -> Forall (ok_text ascii flat srch) (texts h) ->
  ok_text ascii flat srch (data ib) -> actions ib = [] -> undone ib = [] ->
  e_ttywidth E <> Some 0 -> (srch = true -> pr_vi p = None) ->
  (forall s v s', editor_new E p f ib h w cb ttys = ORet tt s ->
     vi_init E (vi_new, s) = ORet tt (v, s') -> keys_careful l v s') ->
  editor_new E p f ib h w cb ttys = ORet tt s ->
  (vi_init E ;;; run_keys vi_core l) (vi_new, s) = ORet d (v, s') -> ok_env ascii flat srch E' ->
  ends E' EInterrupted (handle_key vi_core E' (KCtrl (ch "c")) (v, s')) /\
  ((forall b, cur_buf s' = Val b -> data b = []) ->
   ends E' EUnexpectedEof (handle_key vi_core E' (KCtrl (ch "d")) (v, s'))).
Proof. exact vi_interrupt. Qed.
Print Assumptions C28_vi_partial.

Example C28_vi_case : exists s v s',
  sample_new test_env [str "one"; str "two"] = ORet tt s /\
  (vi_init test_env ;;; run_keys vi_core (map (pair test_env) [kch "a"; KEsc; kch "k"; kch "d"])) (vi_new, s) = ORet false (v, s') /\
  (exists y, handle_key vi_core test_env (KCtrl (ch "c")) (v, s') = OErr EInterrupted y).
Proof. do 3 eexists. split; [vm_compute; reflexivity|]. split; [vm_compute; reflexivity|]. eexists. vm_compute. reflexivity. Qed.
