(** Properties of the Vi key map (src/keymap/vi.rs): C35-C41, C62-C66. *)
From Verif Require Import Base BufferModel UtilModel HistoryModel EditorState EditorModel KeymapModel
  ViModel EditorSpec Tests Samples ViSpec ViRepeat ViCommands ViInsert.
Local Open Scope monad_scope.

(** ** C35: counts saturate *)
Theorem C35_count : forall v s t c ks n l d v' s',
  ready v s t c -> count ks n -> ks <> [] -> map snd l = ks ->
  run_keys vi_core l (v, s) = ORet d (v', s') ->
  d = false /\ v' = vset_count n v /\ line_is s' t c.
Proof. exact vi_count. Qed.
Print Assumptions C35_count.

Example C35_count_case :
  (exists v s v' s', ready v s (str "ab") 1 /\
     run_keys vi_core (map (pair test_env) (keys (str "99999999999"))) (v, s) = ORet false (v', s') /\
     v_count v' = 4294967295%N) /\
  count (keys (str "99999999999")) 4294967295.
Proof.
  split; [|apply (count_digits (ch "9") (str "9999999999")); [split; vm_compute; discriminate|discriminate|];
           repeat constructor; vm_compute; discriminate].
  destruct (ready_run test_env [] (keys (str "ab") ++ [KEsc]) (str "ab") 1) as [v [s [H1 H2]]]; [vm_compute; reflexivity|].
  pose proof (vi_run_app test_env [] (keys (str "ab") ++ [KEsc]) (keys (str "99999999999")) v s H1) as H3.
  assert (K : match vi_run test_env [] ((keys (str "ab") ++ [KEsc]) ++ keys (str "99999999999")) with
     | ORet false (v', _) => v_count v' = 4294967295%N | _ => False end) by (vm_compute; reflexivity).
  rewrite H3 in K. destruct (run_keys _ _ (v, s)) as [[|] [v' s']| | |] eqn:E; try contradiction.
  exists v, s, v', s'. auto.
Qed.

(** The counts before and after [d] multiply. *)
Theorem C35_product : forall v s t c ks1 n1 ks2 n2 l d v' s',
  ready v s t c -> count ks1 n1 -> count ks2 n2 ->
  map snd l = ks1 ++ kch "d" :: ks2 ++ [kch "l"] -> run_keys vi_core l (v, s) = ORet d (v', s') ->
  d = false /\
  let t' := firstn c t ++ skipn (Nat.min (c + N.to_nat (N.min (n1 * n2) 4294967295)) (length t)) t in
  ready v' s' t' (Nat.min c (length t' - 1)).
Proof. exact vi_product. Qed.
Print Assumptions C35_product.

Example C35_product_case :
  exists v s v' s', ready v s (str "abcdefgh") 0 /\
    run_keys vi_core (map (pair test_env) (keys (str "2d3l"))) (v, s) = ORet false (v', s') /\
    ready v' s' (str "gh") 0.
Proof. apply (ready_then test_env [] (keys (str "abcdefgh") ++ [KEsc; kch "0"])). vm_compute. reflexivity. Qed.

(** ** C36: an insert session is undone as a unit *)
Theorem C36_undo_partial : forall v s t c ks n k z times tk l d v' s',
  ready v s t c -> count ks n -> insert_at t c n k z times -> Forall typed tk -> (exists x, In (KChar x) tk) ->
  map snd l = ks ++ k :: tk ++ [KEsc; kch "u"] -> run_keys vi_core l (v, s) = ORet d (v', s') ->
  d = false /\ ready v' s' t (length t - 1).
Proof. exact vi_insertion_undo. Qed.
Print Assumptions C36_undo_partial.

Theorem C36_change_partial : forall U v s t c ck i j tk l d v' s',
  ready v s t c -> change_keys U t c ck i j -> Forall typed tk ->
  map snd l = ck ++ tk ++ [KEsc; kch "u"] -> Forall (fun x => e_uni (fst x) = U) l ->
  run_keys vi_core l (v, s) = ORet d (v', s') ->
  d = false /\ ready v' s' t (length t - 1).
Proof. exact vi_change_undo. Qed.
Print Assumptions C36_change_partial.

Example C36_case :
  insert_at (str "abcd") 1 3 (kch "a") (str "ab", str "cd") 3 /\
  (exists v s v' s', ready v s (str "abcd") 1 /\
     run_keys vi_core (map (pair test_env) (keys (str "3axy") ++ [KBackspace; KEsc])) (v, s) = ORet false (v', s') /\
     ready v' s' (str "abxxxcd") 4) /\
  (exists v s v' s', ready v s (str "abcd") 1 /\
     run_keys vi_core (map (pair test_env) (keys (str "3axy") ++ [KBackspace; KEsc; kch "u"])) (v, s) = ORet false (v', s') /\
     ready v' s' (str "abcd") 3) /\
  (exists v s v' s', ready v s (str "abcd") 1 /\
     run_keys vi_core (map (pair test_env) (keys (str "c2lxyz") ++ [KEsc])) (v, s) = ORet false (v', s') /\
     ready v' s' (str "axyzd") 3) /\
  (exists v s v' s', ready v s (str "abcd") 1 /\
     run_keys vi_core (map (pair test_env) (keys (str "c2lxyz") ++ [KEsc; kch "u"])) (v, s) = ORet false (v', s') /\
     ready v' s' (str "abcd") 3).
Proof.
  split; [exact (ia_a (str "abcd") 1 3)|].
  split; [|split; [|split]];
    apply (ready_then test_env [] (keys (str "abcd") ++ [KEsc; kch "0"; kch "l"])); vm_compute; reflexivity.
Qed.

(** An arrow key in between splits the session in two; with nothing typed, [u]
    takes back an older change. *)
Theorem C36_moved_refuted :
  exists v s v' s', ready v s [] 0 /\
    run_keys vi_core (map (pair test_env) [kch "i"; kch "a"; KLeft; kch "b"; KEsc; kch "u"]) (v, s) = ORet false (v', s') /\
    ready v' s' (str "a") 0.
Proof. apply (ready_then test_env [] [KEsc]). vm_compute. reflexivity. Qed.
Print Assumptions C36_moved_refuted.

Theorem C36_empty_refuted :
  exists v s v' s', ready v s (str "ab") 1 /\
    run_keys vi_core (map (pair test_env) [kch "i"; KEsc; kch "u"]) (v, s) = ORet false (v', s') /\
    ready v' s' [] 0.
Proof. apply (ready_then test_env [] (keys (str "ab") ++ [KEsc])). vm_compute. reflexivity. Qed.
Print Assumptions C36_empty_refuted.

(** ** C64: where typed text goes *)
Theorem C64_insert : forall v s t c ks n k z times tk l d v' s',
  ready v s t c -> count ks n -> insert_at t c n k z times -> Forall typed tk ->
  map snd l = ks ++ k :: tk ++ [KEsc] -> run_keys vi_core l (v, s) = ORet d (v', s') ->
  d = false /\ let '(a, r) := type_times times tk z in ready v' s' (a ++ r) (length a - 1).
Proof. exact vi_insertion. Qed.
Print Assumptions C64_insert.

Example C64_case :
  insert_at (str "abcd") 1 2 (kch "s") (str "a", str "d") 1 /\
  (exists v s v' s', ready v s (str "abcd") 1 /\
     run_keys vi_core (map (pair test_env) (keys (str "2sxyz") ++ [KEsc])) (v, s) = ORet false (v', s') /\
     ready v' s' (str "axyzd") 3) /\
  (exists v s v' s', ready v s (str "abcd") 1 /\
     run_keys vi_core (map (pair test_env) (keys (str "Cxy") ++ [KBackspace; KEsc])) (v, s) = ORet false (v', s') /\
     ready v' s' (str "ax") 1) /\
  (exists v s v' s', ready v s (str "abcd") 1 /\
     run_keys vi_core (map (pair test_env) (keys (str "2Ixy") ++ [KEsc])) (v, s) = ORet false (v', s') /\
     ready v' s' (str "xyxyabcd") 3).
Proof.
  split; [exact (ia_s (str "abcd") 1 2)|].
  split; [|split];
    apply (ready_then test_env [] (keys (str "abcd") ++ [KEsc; kch "0"; kch "l"])); vm_compute; reflexivity.
Qed.

(** ** C65: [c] replaces the designated span *)
Theorem C65_change : forall U v s t c ck i j tk l d v' s',
  ready v s t c -> change_keys U t c ck i j -> Forall typed tk ->
  map snd l = ck ++ tk ++ [KEsc] -> Forall (fun x => e_uni (fst x) = U) l ->
  run_keys vi_core l (v, s) = ORet d (v', s') ->
  d = false /\ i <= j /\ j <= length t /\
  let '(a, r) := type_on tk (firstn i t, skipn j t) in ready v' s' (a ++ r) (length a - 1).
Proof. exact vi_change. Qed.
Print Assumptions C65_change.

Example C65_case :
  change_keys ascii_uni (str "abcd") 1 (keys (str "c2l")) 1 3 /\
  change_keys ascii_uni (str "abcd") 1 (keys (str "cc")) 0 4 /\
  exists v s v' s', ready v s (str "abcd") 1 /\
     run_keys vi_core (map (pair test_env) (keys (str "c2lxyz") ++ [KEsc])) (v, s) = ORet false (v', s') /\
     ready v' s' (str "axyzd") 3.
Proof.
  split; [|split].
  - apply (ck_span ascii_uni (str "abcd") 1 [] 1 (keys (str "2")) 2 [kch "l"] 1 3).
    + exact count_none.
    + apply (count_digits (ch "2") []); [split; vm_compute; discriminate|discriminate|constructor].
    + discriminate.
    + discriminate.
    + apply (span_right (str "abcd") 1 2 (kch "l")). left. reflexivity.
  - apply (ck_line ascii_uni (str "abcd") 1 [] 1 [] 1); exact count_none.
  - apply (ready_then test_env [] (keys (str "abcd") ++ [KEsc; kch "0"; kch "l"])); vm_compute; reflexivity.
Qed.

(** ** C66: one [u] takes back a deletion *)
Theorem C66_undo : forall U v s t c dk l d v' s',
  ready v s t c -> deletion U t c dk ->
  map snd l = dk ++ [kch "u"] -> Forall (fun x => e_uni (fst x) = U) l ->
  run_keys vi_core l (v, s) = ORet d (v', s') ->
  d = false /\ ready v' s' t (length t - 1).
Proof. exact vi_deletion_undo. Qed.
Print Assumptions C66_undo.

Example C66_case :
  deletion ascii_uni (str "ab cd") 0 (keys (str "dw")) /\
  exists v s v' s', ready v s (str "ab cd") 0 /\
     run_keys vi_core (map (pair test_env) (keys (str "dwu"))) (v, s) = ORet false (v', s') /\
     ready v' s' (str "ab cd") 4.
Proof.
  split.
  - apply (de_word ascii_uni (str "ab cd") 0 [] 1 [] 1 [kch "w"] 0 3 count_none count_none ascii_blank).
    change [kch "w"] with (word_keys WNext false). apply ws_w.
    apply (hops_go _ _ 0 0 3 3); [|constructor]. split; [lia|]. split.
    + exists (ch "c"). split; [reflexivity|]. split; [discriminate|]. right. intros y Hy. injection Hy as <-. discriminate.
    + intros q H1 H2 [x [K1 [K2 K3]]]. destruct q as [|[|[|q]]]; try lia.
      * destruct K3 as [K3|K3]; [discriminate|]. injection K1 as <-. apply (K3 (ch "a") eq_refl). reflexivity.
      * injection K1 as <-. apply K2. reflexivity.
  - apply (ready_then test_env [] (keys (str "ab cd") ++ [KEsc; kch "0"])); vm_compute; reflexivity.
Qed.

(** ** C37: word motions *)
Theorem C37_word : forall U v s t c ks n m big l d v' s',
  ready v s t c -> count ks n -> (forall x, u_white U x = true -> is_vi_keyword U x = false) ->
  map snd l = ks ++ word_keys m big -> Forall (fun x => e_uni (fst x) = U) l ->
  run_keys vi_core l (v, s) = ORet d (v', s') ->
  d = false /\ exists p, hops (word_hop U m big t) (word_stop m t) (N.to_nat n) c p /\ ready v' s' t p.
Proof. exact vi_word. Qed.
Print Assumptions C37_word.

Example C37_case :
  let t := str "foo-bar  baz" in
  (forall x, u_white ascii_uni x = true -> is_vi_keyword ascii_uni x = false) /\
  (exists v s v' s', ready v s t 0 /\
    run_keys vi_core (map (pair test_env) (keys (str "2w"))) (v, s) = ORet false (v', s') /\ ready v' s' t 4) /\
  (exists v s v' s', ready v s t 0 /\
    run_keys vi_core (map (pair test_env) (keys (str "W"))) (v, s) = ORet false (v', s') /\ ready v' s' t 9) /\
  (exists v s v' s', ready v s t 0 /\
    run_keys vi_core (map (pair test_env) (keys (str "3e"))) (v, s) = ORet false (v', s') /\ ready v' s' t 6) /\
  (exists v s v' s', ready v s t 11 /\
    run_keys vi_core (map (pair test_env) (keys (str "2b"))) (v, s) = ORet false (v', s') /\ ready v' s' t 4) /\
  (exists v s v' s', ready v s t 11 /\
    run_keys vi_core (map (pair test_env) (keys (str "2ge"))) (v, s) = ORet false (v', s') /\ ready v' s' t 3).
Proof.
  cbv zeta. split; [exact ascii_blank|].
  split; [|split; [|split]]; try (apply (ready_then test_env [] (keys (str "foo-bar  baz") ++ [KEsc; kch "0"])); vm_compute; reflexivity).
  split; apply (ready_then test_env [] (keys (str "foo-bar  baz") ++ [KEsc])); vm_compute; reflexivity.
Qed.

(** ** C38: character searches *)
Theorem C38_find : forall v s t c ks n m k x l d v' s',
  ready v s t c -> count ks n -> search_key m = Some k -> x <> c_tab -> x <> c_nl ->
  map snd l = ks ++ [k; KChar x] -> run_keys vi_core l (v, s) = ORet d (v', s') ->
  d = false /\ v_lcm v' = Some (x, m) /\
  ((exists p, search_hit m t c x n p /\ ready v' s' t (search_stop m p)) \/
   search_miss m t c x n /\ ready v' s' t c).
Proof. exact vi_find. Qed.
Print Assumptions C38_find.

Theorem C38_again : forall v s t c ks n m x (rev : bool) l d v' s',
  ready v s t c -> count ks n -> v_lcm v = Some (x, m) ->
  map snd l = ks ++ [if rev then kch "," else kch ";"] -> run_keys vi_core l (v, s) = ORet d (v', s') ->
  let m' := if rev then reverse_search m else m in
  d = false /\ v_lcm v' = Some (x, m) /\
  ((exists p, search_hit m' t c x n p /\ ready v' s' t (search_stop m' p)) \/
   search_miss m' t c x n /\ ready v' s' t c).
Proof. exact vi_find_again. Qed.
Print Assumptions C38_again.

(** The two outcomes exclude each other, and the place found is determined. *)
Theorem C38_determined : forall m t c x n p q, search_hit m t c x n p ->
  ~ search_miss m t c x n /\ (search_hit m t c x n q -> p = q).
Proof. exact search_determined. Qed.
Print Assumptions C38_determined.

Example C38_case :
  let t := str "a-b-c-d" in
  (exists v s v' s', ready v s t 0 /\
    run_keys vi_core (map (pair test_env) (keys (str "2t-"))) (v, s) = ORet false (v', s') /\ ready v' s' t 2) /\
  (exists v s v' s', ready v s t 0 /\
    run_keys vi_core (map (pair test_env) (keys (str "9f-"))) (v, s) = ORet false (v', s') /\ ready v' s' t 0) /\
  (exists v s v' s', ready v s t 1 /\
    run_keys vi_core (map (pair test_env) (keys (str "2;"))) (v, s) = ORet false (v', s') /\ ready v' s' t 5) /\
  (exists v s v' s', ready v s t 5 /\
    run_keys vi_core (map (pair test_env) (keys (str ","))) (v, s) = ORet false (v', s') /\ ready v' s' t 3) /\
  search_hit RightUntil t 0 (ch "-") 2 3.
Proof.
  cbv zeta. split; [|split; [|split; [|split]]].
  - apply (ready_then test_env [] (keys (str "a-b-c-d") ++ [KEsc; kch "0"])); vm_compute; reflexivity.
  - apply (ready_then test_env [] (keys (str "a-b-c-d") ++ [KEsc; kch "0"])); vm_compute; reflexivity.
  - apply (ready_then test_env [] (keys (str "a-b-c-d") ++ [KEsc; kch "0"; kch "f"; kch "-"])); vm_compute; reflexivity.
  - apply (ready_then test_env [] (keys (str "a-b-c-d") ++ [KEsc; kch "0"; kch "3"; kch "f"; kch "-"])); vm_compute; reflexivity.
  - exists (str "a"), (str "-b"), (str "c-d"). repeat split.
Qed.

(** ** C39: repeat terminates *)
Theorem C39_terminates : forall E l s, (vi_init E ;;; run_keys vi_core l) (vi_new, s) <> OFuel.
Proof. exact vi_terminates. Qed.
Print Assumptions C39_terminates.

(** The bound on the recursion plays no role: any larger one gives the same
    outcome. *)
Theorem C39_unbounded : forall E l s d v s1 E' k f,
  (vi_init E ;;; run_keys vi_core l) (vi_new, s) = ORet d (v, s1) -> vi_fuel v <= f ->
  vi_core E' k (v, s1) <> OFuel /\ vi_core_fuel f E' k (v, s1) = vi_core E' k (v, s1).
Proof. exact vi_unfuelled. Qed.
Print Assumptions C39_unbounded.

(** Repeating can leave the editor in insert mode: [C] records itself. *)
Theorem C39_normal_mode_refuted : exists l,
  match vi_run test_env [] (l ++ [kch "."]) with
  | ORet _ (v, _) => vmode_of v = MInsert
  | _ => False
  end /\
  match vi_run test_env [] l with
  | ORet _ (v, _) => vmode_of v = MNormal
  | _ => False
  end.
Proof. exists (keys (str "abc") ++ [KEsc; kch "C"; kch "x"; KEsc]). vm_compute. auto. Qed.
Print Assumptions C39_normal_mode_refuted.

(** It does not in a session made of complete commands without [C] and [cc]. *)
Theorem C39_normal_mode_partial : forall E t cmds l s d v s',
  Forall typed t -> Forall command cmds -> map snd l = t ++ KEsc :: concat cmds ->
  (vi_init E ;;; run_keys vi_core l) (vi_new, s) = ORet d (v, s') -> d = false /\ vmode_of v = MNormal.
Proof. exact commands_normal. Qed.
Print Assumptions C39_normal_mode_partial.

Example C39_case :
  let cmds := [[kch "0"]; kch "c" :: keys (str "w") ++ keys (str "xy") ++ [KEsc]; [kch "w"]; [kch "3"]; [kch "."];
               kch "d" :: [kch "b"]; [kch "."]] in
  Forall typed (keys (str "one two")) /\ Forall command cmds /\
  seen (vi_run test_env [] (keys (str "one two") ++ KEsc :: concat cmds)) = Some (false, str "y", 0).
Proof.
  cbv zeta. split; [repeat constructor; discriminate|]. split; [|vm_compute; reflexivity].
  repeat apply Forall_cons; try apply Forall_nil.
  - apply co_digit. split; vm_compute; discriminate.
  - apply co_change; [|repeat constructor; discriminate]. apply (mo_one (ch "w")). vm_compute. auto 20.
  - apply co_motion. apply (mo_one (ch "w")). vm_compute. auto 20.
  - apply co_digit. split; vm_compute; discriminate.
  - apply co_repeat.
  - apply co_delete. apply (mo_one (ch "b")). vm_compute. auto 20.
  - apply co_repeat.
Qed.

(** ** C40: deletions *)
Theorem C40_x : forall v s t c ks n k l d v' s',
  ready v s t c -> count ks n -> In k [kch "x"; KDelete] ->
  map snd l = ks ++ [k] -> run_keys vi_core l (v, s) = ORet d (v', s') ->
  d = false /\ let t' := firstn c t ++ skipn (c + N.to_nat n) t in ready v' s' t' (Nat.min c (length t' - 1)).
Proof. exact vi_x. Qed.
Print Assumptions C40_x.

Theorem C40_D : forall v s t c ks n l d v' s', ready v s t c -> count ks n ->
  map snd l = ks ++ [kch "D"] -> run_keys vi_core l (v, s) = ORet d (v', s') ->
  d = false /\ ready v' s' (firstn c t) (c - 1).
Proof. exact vi_D. Qed.
Print Assumptions C40_D.

Theorem C40_dd : forall v s t c ks1 n1 ks2 n2 l d v' s',
  ready v s t c -> count ks1 n1 -> count ks2 n2 ->
  map snd l = ks1 ++ kch "d" :: ks2 ++ [kch "d"] -> run_keys vi_core l (v, s) = ORet d (v', s') ->
  d = false /\ ready v' s' [] 0.
Proof. exact vi_dd. Qed.
Print Assumptions C40_dd.

(** [d] and a motion, when the motion has a target; the [0] motion only without
    counts. *)
Theorem C40_span_partial : forall v s t c ks1 n1 ks2 n2 mk i j l d v' s',
  ready v s t c -> count ks1 n1 -> count ks2 n2 ->
  (mk = [kch "0"] -> ks1 = [] /\ ks2 = []) -> (forall k x, mk = [k; KChar x] -> x <> c_tab /\ x <> c_nl) ->
  span t c (N.min (n1 * n2) 4294967295) mk i j ->
  map snd l = ks1 ++ kch "d" :: ks2 ++ mk -> run_keys vi_core l (v, s) = ORet d (v', s') ->
  d = false /\ i <= j /\ j <= length t /\
  let t' := firstn i t ++ skipn j t in ready v' s' t' (Nat.min i (length t' - 1)).
Proof. exact vi_delete_span. Qed.
Print Assumptions C40_span_partial.

(** A search that finds nothing deletes a character all the same. *)
Theorem C40_missing_refuted : exists v s t c l v' s' t' c',
  ready v s t c /\ map snd l = [kch "d"; kch "f"; kch "x"] /\ search_miss RightAt t c (ch "x") 1 /\
  run_keys vi_core l (v, s) = ORet false (v', s') /\ ready v' s' t' c' /\ t' <> t.
Proof.
  destruct (ready_then test_env [] (keys (str "ab") ++ [KEsc; kch "0"]) (keys (str "dfx")) (str "ab") 0 (str "b") 0)
    as [v [s [v' [s' [H1 [H2 H3]]]]]]; [vm_compute; reflexivity|].
  exists v, s, (str "ab"), 0, (map (pair test_env) (keys (str "dfx"))), v', s', (str "b"), 0.
  split; [exact H1|]. split; [reflexivity|]. split; [vm_compute; reflexivity|]. split; [exact H2|].
  split; [exact H3|discriminate].
Qed.
Print Assumptions C40_missing_refuted.

(** After a count, [d0] does not delete to the start: the [0] is taken for a
    digit and the editor waits for a motion. *)
Theorem C40_zero_refuted : exists v s t c l v' s',
  ready v s t c /\ 0 < c /\ map snd l = [kch "2"; kch "d"; kch "0"] /\
  run_keys vi_core l (v, s) = ORet false (v', s') /\ line_is s' t c /\ vmode_of v' = MDelete c /\ v_count v' = 20%N.
Proof.
  destruct (ready_run test_env [] (keys (str "ab") ++ [KEsc]) (str "ab") 1) as [v [s [H1 H2]]]; [vm_compute; reflexivity|].
  pose proof (vi_run_app test_env [] (keys (str "ab") ++ [KEsc]) (keys (str "2d0")) v s H1) as H3.
  assert (K : match vi_run test_env [] ((keys (str "ab") ++ [KEsc]) ++ keys (str "2d0")) with
     | ORet false (v', s') => line_is s' (str "ab") 1 /\ vmode_of v' = MDelete 1 /\ v_count v' = 20%N
     | _ => False end).
  { vm_compute. split; [eexists; repeat split; reflexivity|auto]. }
  rewrite H3 in K. destruct (run_keys _ _ (v, s)) as [[|] [v' s']| | |] eqn:E; try contradiction.
  destruct K as [K1 [K2 K3]].
  exists v, s, (str "ab"), 1, (map (pair test_env) (keys (str "2d0"))), v', s'.
  split; [exact H2|]. split; [constructor|]. split; [reflexivity|]. auto.
Qed.
Print Assumptions C40_zero_refuted.

Example C40_case :
  let t := str "one two" in
  (exists v s v' s', ready v s t 4 /\
    run_keys vi_core (map (pair test_env) (keys (str "2x"))) (v, s) = ORet false (v', s') /\ ready v' s' (str "one o") 4) /\
  (exists v s v' s', ready v s t 4 /\
    run_keys vi_core (map (pair test_env) (keys (str "9x"))) (v, s) = ORet false (v', s') /\ ready v' s' (str "one ") 3) /\
  (exists v s v' s', ready v s t 4 /\
    run_keys vi_core (map (pair test_env) (keys (str "D"))) (v, s) = ORet false (v', s') /\ ready v' s' (str "one ") 3) /\
  (exists v s v' s', ready v s t 4 /\
    run_keys vi_core (map (pair test_env) (keys (str "dtw"))) (v, s) = ORet false (v', s') /\ ready v' s' (str "one wo") 4) /\
  (exists v s v' s', ready v s t 4 /\
    run_keys vi_core (map (pair test_env) (keys (str "d2h"))) (v, s) = ORet false (v', s') /\ ready v' s' (str "ontwo") 2) /\
  span t 4 1 [kch "t"; kch "w"] 4 5.
Proof.
  cbv zeta. split; [|split; [|split; [|split; [|split]]]];
    try (apply (ready_then test_env [] (keys (str "one two") ++ [KEsc; kch "b"])); vm_compute; reflexivity).
  apply span_t. exists (str "one t"), [], (str "o"). repeat split.
Qed.

(** ** C62: deletions by word *)
Theorem C62_word_partial : forall U v s t c ks1 n1 ks2 n2 mk i j l d v' s',
  ready v s t c -> count ks1 n1 -> count ks2 n2 -> (forall x, u_white U x = true -> is_vi_keyword U x = false) ->
  word_span U t c (N.min (n1 * n2) 4294967295) mk i j ->
  map snd l = ks1 ++ kch "d" :: ks2 ++ mk -> Forall (fun x => e_uni (fst x) = U) l ->
  run_keys vi_core l (v, s) = ORet d (v', s') ->
  d = false /\ i <= j /\ j <= length t /\
  let t' := firstn i t ++ skipn j t in ready v' s' t' (Nat.min i (length t' - 1)).
Proof. exact vi_delete_wspan. Qed.
Print Assumptions C62_word_partial.

Example C62_case :
  let t := str "one two three" in
  (exists v s v' s', ready v s t 0 /\
    run_keys vi_core (map (pair test_env) (keys (str "2dw"))) (v, s) = ORet false (v', s') /\ ready v' s' (str "three") 0) /\
  (exists v s v' s', ready v s t 12 /\
    run_keys vi_core (map (pair test_env) (keys (str "db"))) (v, s) = ORet false (v', s') /\ ready v' s' (str "one two e") 8) /\
  word_span ascii_uni t 0 1 [kch "w"] 0 4.
Proof.
  cbv zeta. split; [|split].
  - apply (ready_then test_env [] (keys (str "one two three") ++ [KEsc; kch "0"])); vm_compute; reflexivity.
  - apply (ready_then test_env [] (keys (str "one two three") ++ [KEsc])); vm_compute; reflexivity.
  - apply (ws_w ascii_uni _ 0 1 false 4). eapply hops_go; [|apply hops_0]. split; [auto with arith|]. split.
    + exists (ch "t"). split; [reflexivity|]. split; [vm_compute; discriminate|]. right. intros y Hy.
      vm_compute in Hy. injection Hy as <-. vm_compute. discriminate.
    + intros q H1 H2 [x [H3 [H4 H5]]]. destruct H5 as [->|H5]; [inversion H1|].
      destruct q as [|[|[|[|q]]]]; [inversion H1|..].
      * vm_compute in H3. injection H3 as <-. apply (H5 (ch "o")); reflexivity.
      * vm_compute in H3. injection H3 as <-. apply (H5 (ch "n")); reflexivity.
      * vm_compute in H3. injection H3 as <-. apply H4. reflexivity.
      * do 4 apply le_S_n in H2. inversion H2.
Qed.

(** [de] leaves the last character of the word. *)
Theorem C62_end_refuted : exists v s t c p l v' s',
  ready v s t c /\ word_hop ascii_uni WEnd false t c p /\ map snd l = [kch "d"; kch "e"] /\
  run_keys vi_core l (v, s) = ORet false (v', s') /\
  ready v' s' (firstn c t ++ skipn p t) c /\ firstn c t ++ skipn p t <> firstn c t ++ skipn (p + 1) t.
Proof.
  destruct (ready_then test_env [] (keys (str "ab c") ++ [KEsc; kch "0"]) (keys (str "de")) (str "ab c") 0 (str "b c") 0)
    as [v [s [v' [s' [H1 [H2 H3]]]]]]; [vm_compute; reflexivity|].
  exists v, s, (str "ab c"), 0, 1, (map (pair test_env) (keys (str "de"))), v', s'.
  split; [exact H1|]. split; [|split; [reflexivity|split; [exact H2|split; [exact H3|vm_compute; discriminate]]]].
  split; [auto|]. split.
  - exists (ch "b"). split; [reflexivity|]. split; [vm_compute; discriminate|]. intros y Hy. vm_compute in Hy.
    injection Hy as <-. vm_compute. discriminate.
  - intros q K1 K2. exfalso. apply (Nat.lt_irrefl q). apply (Nat.lt_le_trans _ _ _ K2). exact K1.
Qed.
Print Assumptions C62_end_refuted.

(** ** C63: character motions *)
Theorem C63_move : forall v s t c ks n k p l d v' s', ready v s t c -> count ks n ->
  (In k [kch "h"; KBackspace] /\ p = c - N.to_nat n \/
   In k [kch "l"; kch " "] /\ p = Nat.min (c + N.to_nat n) (length t - 1) \/
   (k = kch "^" \/ k = kch "0" /\ ks = []) /\ p = 0 \/ k = kch "$" /\ p = length t - 1) ->
  map snd l = ks ++ [k] -> run_keys vi_core l (v, s) = ORet d (v', s') ->
  d = false /\ ready v' s' t p.
Proof. exact vi_move. Qed.
Print Assumptions C63_move.

Example C63_case :
  let t := str "abcdef" in
  (exists v s v' s', ready v s t 5 /\
    run_keys vi_core (map (pair test_env) (keys (str "3h"))) (v, s) = ORet false (v', s') /\ ready v' s' t 2) /\
  (exists v s v' s', ready v s t 0 /\
    run_keys vi_core (map (pair test_env) (keys (str "12l"))) (v, s) = ORet false (v', s') /\ ready v' s' t 5).
Proof.
  cbv zeta. split.
  - apply (ready_then test_env [] (keys (str "abcdef") ++ [KEsc])); vm_compute; reflexivity.
  - apply (ready_then test_env [] (keys (str "abcdef") ++ [KEsc; kch "0"])); vm_compute; reflexivity.
Qed.

(** ** C41: Esc returns to normal mode *)
Theorem C41_esc : forall E l s d v s1 E' d' v' s2,
  (vi_init E ;;; run_keys vi_core l) (vi_new, s) = ORet d (v, s1) ->
  handle_key vi_core E' KEsc (v, s1) = ORet d' (v', s2) -> d' = false /\ vmode_of v' = MNormal.
Proof. exact esc_normal. Qed.
Print Assumptions C41_esc.

Example C41_case :
  forallb (fun t =>
    match vi_run test_env [] (keys (str "one two") ++ KEsc :: keys t ++ [KEsc]) with
    | ORet false (v, _) => match v_stack v with [] => true | _ => false end
    | _ => false
    end) [str "3i."; str "cw"; str "cfo"; str "df"; str "r"; str "dg"; str "g"; str "C"] = true.
Proof. vm_compute. reflexivity. Qed.
