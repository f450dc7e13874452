(** Properties of the Vi commands [r], [~] and counted [u] (src/keymap/vi.rs): C68-C70. *)
From Verif Require Import Base BufferModel UtilModel HistoryModel EditorState EditorModel KeymapModel
  ViModel EditorSpec Tests Samples ViSpec ViRepeat ViCommands ViInsert ViChangeSpec ViChange ViCount.
Local Open Scope monad_scope.

(** ** C68: [r] overwrites exactly the counted characters, or nothing *)
Theorem C68_replace : forall v s t c ks n x l d v' s',
  ready v s t c -> count ks n -> x <> c_tab -> x <> c_nl ->
  map snd l = ks ++ [kch "r"; KChar x] -> run_keys vi_core l (v, s) = ORet d (v', s') ->
  d = false /\
  ((n <= N.of_nat (length t - c))%N ->
     ready v' s' (firstn c t ++ repeat x (N.to_nat n) ++ skipn (c + N.to_nat n) t) (c + N.to_nat n - 1)) /\
  ((N.of_nat (length t - c) < n)%N -> ready v' s' t c).
Proof. exact vi_r. Qed.
Print Assumptions C68_replace.

Example C68_replace_case :
  (exists v s v' s', ready v s (str "abcd") 1 /\
     run_keys vi_core (map (pair test_env) (keys (str "2rx"))) (v, s) = ORet false (v', s') /\
     ready v' s' (str "axxd") 2) /\
  (exists v s v' s', ready v s (str "abcd") 1 /\
     run_keys vi_core (map (pair test_env) (keys (str "4rx"))) (v, s) = ORet false (v', s') /\
     ready v' s' (str "abcd") 1) /\
  (2 <= N.of_nat (length (str "abcd") - 1))%N /\ (N.of_nat (length (str "abcd") - 1) < 4)%N /\
  count (keys (str "2")) 2 /\ count (keys (str "4")) 4.
Proof.
  split; [|split; [|split; [|split; [|split]]]].
  - apply (ready_then test_env [] (keys (str "abcd") ++ [KEsc; kch "0"; kch "l"])). vm_compute. reflexivity.
  - apply (ready_then test_env [] (keys (str "abcd") ++ [KEsc; kch "0"; kch "l"])). vm_compute. reflexivity.
  - vm_compute. discriminate.
  - vm_compute. reflexivity.
  - apply (count_digits (ch "2") []); [split; vm_compute; discriminate|discriminate|constructor].
  - apply (count_digits (ch "4") []); [split; vm_compute; discriminate|discriminate|constructor].
Qed.

(** One [u] takes it back. *)
Theorem C68_undo : forall v s t c ks n x l d v' s',
  ready v s t c -> count ks n -> x <> c_tab -> x <> c_nl -> (n <= N.of_nat (length t - c))%N ->
  map snd l = ks ++ [kch "r"; KChar x; kch "u"] -> run_keys vi_core l (v, s) = ORet d (v', s') ->
  d = false /\ ready v' s' t (length t - 1).
Proof. exact vi_r_undo. Qed.
Print Assumptions C68_undo.

Example C68_undo_case :
  exists v s v' s', ready v s (str "abcd") 1 /\
    run_keys vi_core (map (pair test_env) (keys (str "2rxu"))) (v, s) = ORet false (v', s') /\
    ready v' s' (str "abcd") 3.
Proof. apply (ready_then test_env [] (keys (str "abcd") ++ [KEsc; kch "0"; kch "l"])). vm_compute. reflexivity. Qed.

(** A key that is not a character cancels it. *)
Theorem C68_cancel : forall v s t c ks n k l d v' s',
  ready v s t c -> count ks n -> In k [KEsc; KBackspace; KDelete] ->
  map snd l = ks ++ [kch "r"; k] -> run_keys vi_core l (v, s) = ORet d (v', s') ->
  d = false /\ ready v' s' t c.
Proof. exact vi_r_cancel. Qed.
Print Assumptions C68_cancel.

Example C68_cancel_case :
  exists v s v' s', ready v s (str "abcd") 1 /\
    run_keys vi_core (map (pair test_env) (keys (str "2r") ++ [KDelete])) (v, s) = ORet false (v', s') /\
    ready v' s' (str "abcd") 1.
Proof. apply (ready_then test_env [] (keys (str "abcd") ++ [KEsc; kch "0"; kch "l"])). vm_compute. reflexivity. Qed.

(** ** C69: [~] swaps the case of the counted characters *)
Theorem C69_tilde : forall U v s t c ks n l d v' s',
  ready v s t c -> count ks n ->
  map snd l = ks ++ [kch "~"] -> Forall (fun x => e_uni (fst x) = U) l ->
  run_keys vi_core l (v, s) = ORet d (v', s') ->
  d = false /\
  let mid := flat_map (swap_case U) (firstn (N.to_nat n) (skipn c t)) in
  let t' := firstn c t ++ mid ++ skipn (c + N.to_nat n) t in
  vmode_of v' = MNormal /\ is_search s' = false /\ line_is s' t' (Nat.min (c + length mid) (length t' - 1)) /\
  (ks = [] -> v_count v' = 0%N).
Proof. exact vi_tilde. Qed.
Print Assumptions C69_tilde.

Example C69_tilde_case :
  (exists v s v' s', ready v s (str "aBc d") 1 /\
     run_keys vi_core (map (pair test_env) (keys (str "~"))) (v, s) = ORet false (v', s') /\
     ready v' s' (str "abc d") 2) /\
  flat_map (swap_case ascii_uni) (str "aBc d") = str "AbC D" /\
  seen (vi_run test_env [] (keys (str "aBc d") ++ [KEsc; kch "0"; kch "l"; kch "9"; kch "~"])) = Some (false, str "abC D", 4).
Proof.
  split; [|split; vm_compute; reflexivity].
  apply (ready_then test_env [] (keys (str "aBc d") ++ [KEsc; kch "0"; kch "l"])). vm_compute. reflexivity.
Qed.

Theorem C69_undo : forall U v s t c l d v' s', ready v s t c ->
  (exists x, nth_error t c = Some x /\ (u_lower U x = true \/ u_upper U x = true)) ->
  map snd l = [kch "~"; kch "u"] -> Forall (fun x => e_uni (fst x) = U) l ->
  run_keys vi_core l (v, s) = ORet d (v', s') ->
  d = false /\ ready v' s' t (length t - 1).
Proof. exact vi_tilde_undo. Qed.
Print Assumptions C69_undo.

Example C69_undo_case :
  (exists v s v' s', ready v s (str "aBc d") 1 /\
     run_keys vi_core (map (pair test_env) (keys (str "~u"))) (v, s) = ORet false (v', s') /\
     ready v' s' (str "aBc d") 4) /\
  nth_error (str "aBc d") 1 = Some (ch "B") /\ u_upper ascii_uni (ch "B") = true.
Proof.
  split; [|split; reflexivity].
  apply (ready_then test_env [] (keys (str "aBc d") ++ [KEsc; kch "0"; kch "l"])). vm_compute. reflexivity.
Qed.

(** ** C70: a counted [u] is that many single ones *)
Theorem C70_undos : forall v s t c ks n l l' d v1 s1 d' v2 s2,
  ready v s t c -> count ks n ->
  map snd l = ks ++ [kch "u"] -> map snd l' = repeat (kch "u") (N.to_nat n) ->
  run_keys vi_core l (v, s) = ORet d (v1, s1) -> run_keys vi_core l' (v, s) = ORet d' (v2, s2) ->
  d = false /\ d' = false /\ exists t' c', ready v1 s1 t' c' /\ ready v2 s2 t' c'.
Proof. exact vi_undos. Qed.
Print Assumptions C70_undos.

Example C70_case :
  (exists v s v' s', ready v s (str "de") 0 /\
     run_keys vi_core (map (pair test_env) (keys (str "2u"))) (v, s) = ORet false (v', s') /\
     ready v' s' (str "bcde") 3) /\
  (exists v s v' s', ready v s (str "de") 0 /\
     run_keys vi_core (map (pair test_env) (keys (str "uu"))) (v, s) = ORet false (v', s') /\
     ready v' s' (str "bcde") 3).
Proof.
  split;
    apply (ready_then test_env [] (keys (str "abcde") ++ [KEsc; kch "0"; kch "x"; kch "x"; kch "x"]));
    vm_compute; reflexivity.
Qed.

(** ** C71: a count applies to one command *)

(** Full statement: the count typed before a command is used for that command only.  For the commands
    of C35, C37, C38, C40, C62-C66, C68 and C70 it holds and is part of the theorems there: they end
    in [ready], which has no count.  It is false for [~] and for a key that is no command: the count
    stays behind and the next command uses it (or its digits are appended to it).

    For every other command, from every state and whatever keys complete it: back in the normal mode
    no count is left.  A Right that accepts a suggestion is not a command either; [.] does what the
    keys it repeats do, so it leaves a count when it repeats [~] and is left out. *)
Theorem C71_used_partial : forall E k v s d v' s',
  (vmode_of v = MNormal -> starts_command k = true /\ (k = KRight -> showing_autosuggestion s = false)) ->
  vi_key E k (v, s) = ORet d (v', s') -> vmode_of v' = MNormal -> v_count v' = 0%N.
Proof. exact count_used. Qed.
Print Assumptions C71_used_partial.

(** [2df] waits for a letter, with the count put aside; the [c] completes the command and no count is left. *)
Example C71_used_case :
  match vi_run test_env [] (keys (str "abcabcabc") ++ [KEsc; kch "0"] ++ keys (str "2df")) with
  | ORet _ (v, s) =>
    vmode_of v = MMoveToChar RightAt /\ v_sec v = 2%N /\
    match vi_key test_env (kch "c") (v, s) with
    | ORet d (v', s') => vmode_of v' = MNormal /\ v_count v' = 0%N /\ seen (ORet d (v', s')) = Some (false, str "abc", 0)
    | _ => False
    end
  | _ => False
  end.
Proof. vm_compute. repeat split. Qed.

Theorem C71_count_refuted : exists t,
  let run ks := seen (vi_run test_env [] (keys t ++ [KEsc; kch "0"] ++ keys ks)) in
  run (str "2~") = Some (false, str "ABcdefgh", 2) /\ run (str "2~x") = Some (false, str "ABefgh", 2) /\
  run (str "3z") = Some (false, str "abcdefgh", 0) /\ run (str "3zx") = Some (false, str "defgh", 0) /\
  run (str "3z2l") = Some (false, str "abcdefgh", 7).
Proof. exists (str "abcdefgh"). vm_compute. repeat split. Qed.
Print Assumptions C71_count_refuted.
