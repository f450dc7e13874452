(** Properties of src/history.rs: C08-C16, C47 and the corrected C48-C52. *)
From Verif Require Import Base Utf8 BufferModel BufferSpec UtilSpec HistoryModel HistorySpec
  HistoryProofs HistoryFiles.
From Coq Require Import Sorting.Sorted.

(** ** C08: pushing keeps the newest entries in order *)
Theorem C08_pushes : forall w h l, no_file_writes h -> buffers h = [] ->
  newest (h_maxbuf h) (if h_appdup h then map data l else collapse None (map data l))
    (texts (fst (pushes w h l))).
Proof. exact pushes_empty. Qed.
Print Assumptions C08_pushes.

(** One push on any history: rejected as a repetition, or the newest of the old
    entries (the very same buffers) with the new one. *)
Theorem C08_push : forall w h b h' w', no_file_writes h -> hist_push w h b = (h', w') ->
  w' = w /\
  ((h_appdup h = false /\ last_opt (texts h) = Some (data b) /\ h' = h) \/
   ((h_appdup h = true \/ last_opt (texts h) <> Some (data b)) /\
    newest (h_maxbuf h) (buffers h ++ [b]) (buffers h'))).
Proof. exact push_step. Qed.
Print Assumptions C08_push.

Example C08_case :
  let h := set_max_buffers_size hist_new 2 in
  no_file_writes h /\ buffers h = [] /\
  texts (fst (pushes (mkFs (fun _ => None) (fun _ => true)) h (map buf_of [str "a"; str "b"; str "b"; str "a"; str "c"])))
  = [str "a"; str "c"].
Proof. split; [left; reflexivity|]. split; reflexivity. Qed.

(** ** C09: incremental append. False as stated: the push that compacts the
    file (every thirtieth without load_duplicates) does not write its line. *)
Theorem C09_refuted : exists w h p b f h' w' f',
  h_inc h = true /\ h_file h = Some p /\ fs_files w p = Some f /\ f_writable f = true /\ f_readable f = true /\
  accepts h (data b) /\ hist_push w h b = (h', w') /\ last_opt (texts h') = Some (data b) /\
  fs_files w' p = Some f' /\ ~ In (data b) (entries (f_bytes f')).
Proof.
  exists (mkFs (fun _ => Some (mkFile (enc (str "old") ++ [10%N]) true true)) (fun _ => true)).
  exists (mkHist [] (Some (str "f")) 10 10 false true false 4 false 29), (str "f"), (buf_of (str "new")).
  eexists _, _, _, _. split; [reflexivity|]. split; [reflexivity|]. split; [reflexivity|]. split; [reflexivity|].
  split; [reflexivity|]. split; [right; discriminate|]. split; [reflexivity|]. split; [reflexivity|].
  split; [reflexivity|]. cbv. intros [H|[]]. discriminate H.
Qed.
Print Assumptions C09_refuted.

(** True with load_duplicates, and between compactions. *)
Theorem C09_append_partial : forall w h p b, h_inc h = true -> h_file h = Some p -> can_write w p ->
  accepts h (data b) -> h_loaddup h = true \/ h_compact h < 29 ->
  exists h' w' f, hist_push w h b = (h', w') /\ fs_files w p = Some f /\
    content_set w w' p (f_bytes f ++ enc (data b) ++ [10%N]) /\
    newest (h_maxbuf h) (buffers h ++ [b]) (buffers h') /\
    h_fsize h' = h_fsize h + (blen (data b) + 1) /\
    h_inc h' = true /\ h_file h' = Some p /\ h_loaddup h' = h_loaddup h /\ h_maxbuf h' = h_maxbuf h /\
    h_appdup h' = h_appdup h /\ h_share h' = h_share h /\ h_maxfile h' = h_maxfile h /\
    h_compact h' = (if h_loaddup h then 1 else S (h_compact h)).
Proof. exact push_appends. Qed.
Print Assumptions C09_append_partial.

Theorem C09_pushes_partial : forall l w h p f, h_inc h = true -> h_file h = Some p ->
  fs_files w p = Some f -> f_writable f = true -> h_loaddup h = true -> 0 < h_maxbuf h ->
  let acc := if h_appdup h then map data l else collapse (last_opt (texts h)) (map data l) in
  exists f', fs_files (snd (pushes w h l)) p = Some f' /\ f_bytes f' = f_bytes f ++ lines_bytes acc /\
    (forall q, q <> p -> fs_files (snd (pushes w h l)) q = fs_files w q).
Proof. exact pushes_file. Qed.
Print Assumptions C09_pushes_partial.

Example C09_case :
  let w := mkFs (fun _ => Some (mkFile [120%N; 10%N] true true)) (fun _ => true) in
  let h := mkHist [] (Some (str "f")) 1 10 false true false 2 true 0 in
  can_write w (str "f") /\ accepts h (str "a") /\
  option_map f_bytes (fs_files (snd (pushes w h (map buf_of [str "a"; str "a"; str "b"]))) (str "f"))
  = Some [120; 10; 97; 10; 98; 10]%N.
Proof.
  split; [eexists; split; reflexivity|]. split; [right; discriminate|]. reflexivity.
Qed.

(** ** C10: commit and reload. False for lines holding a newline, starting with
    '#' or ending in a carriage return. *)
Theorem C10_refuted : exists w h p h' w' g' n,
  h_inc h = false /\ can_write w p /\ has_content w p [] /\
  commit_to_file_path w h p = (true, h', w') /\ load_history_file w' hist_new p false = (n, g') /\
  texts h = [str "a"; str "#b"; str "c" ++ c_nl :: str "d"; str "e" ++ [c_cr]] /\
  texts g' = [str "a"; str "c"; str "d"; str "e"].
Proof.
  exists (mkFs (fun _ => Some (mkFile [] true true)) (fun _ => true)).
  exists (set_buffers hist_new (map buf_of [str "a"; str "#b"; str "c" ++ c_nl :: str "d"; str "e" ++ [c_cr]])), (str "f").
  eexists _, _, _, _. split; [reflexivity|]. split; [eexists; split; reflexivity|].
  split; [eexists; repeat split; reflexivity|]. split; [reflexivity|]. split; [reflexivity|]. split; reflexivity.
Qed.
Print Assumptions C10_refuted.

Theorem C10_plain_lines_partial : forall w h g p bs0, h_inc h = false -> can_write w p -> has_content w p bs0 ->
  Forall plain_line (texts h) -> h_loaddup g = true -> h_maxfile h <= h_maxfile g ->
  exists h' w' n g', commit_to_file_path w h p = (true, h', w') /\
    load_history_file w' g p false = (n, g') /\ newest (h_maxfile h) (texts h) (texts g').
Proof. exact commit_reload_plain. Qed.
Print Assumptions C10_plain_lines_partial.

Example C10_case : Forall plain_line [str "ls -l"; str "a#"; []].
Proof.
  assert (K : forall t, forallb scalar t = true -> existsb (N.eqb c_nl) t = false ->
    match rev t with c :: _ => c <> c_cr | [] => True end -> match t with c :: _ => c <> c_hash | [] => True end -> plain_line t).
  { intros t H1 H2 H3 H4. split; [|split; [|split]].
    - apply Forall_forall. intros x Hx. apply (proj1 (forallb_forall _ _) H1). assumption.
    - intro C. assert (existsb (N.eqb c_nl) t = true); [|congruence]. apply existsb_exists. exists c_nl.
      split; [assumption|apply N.eqb_refl].
    - intros [t' ->]. rewrite rev_app_distr in H3. simpl in H3. congruence.
    - intros [t' ->]. congruence. }
  repeat constructor; apply K; try reflexivity; simpl; try exact I; discriminate.
Qed.

(** ** C48: what committing and reloading gives for any lines: each line is
    split at its newlines, one carriage return at the end of each piece goes,
    and pieces starting with '#' are dropped. *)
Theorem C48_commit_reload : forall w h g p bs0, h_inc h = false -> can_write w p -> has_content w p bs0 ->
  Forall uni_text (texts h) -> h_loaddup g = true ->
  exists h' w' n g' kept, commit_to_file_path w h p = (true, h', w') /\
    load_history_file w' g p false = (n, g') /\ newest (h_maxfile h) (texts h) kept /\
    newest (h_maxfile g) (flat_map written_entry kept) (texts g').
Proof. exact commit_reload_exact. Qed.
Print Assumptions C48_commit_reload.

Theorem C48_written_entry : forall t l, written_entry t = l <->
  exists ps, ps <> [] /\ glue c_nl ps = t /\ Forall (fun p => ~ In c_nl p) ps /\
    selects (fun s => ~ comment s) (map strip_cr ps) l.
Proof. exact written_entry_spec. Qed.
Print Assumptions C48_written_entry.

Theorem C48_strip_cr : forall t, strip_cr (t ++ [c_cr]) = t /\ (~ ends_cr t -> strip_cr t = t).
Proof. exact (fun t => conj (strip_cr_yes t) (strip_cr_no t)). Qed.
Print Assumptions C48_strip_cr.

Example C48_case : written_entry (str "a" ++ c_nl :: str "#b" ++ c_nl :: str "c" ++ [c_cr]) = [str "a"; str "c"].
Proof. reflexivity. Qed.

(** ** C11: loading a history file. [reads] says which entries a file holds. *)
Theorem C11_load_partial : forall w h p bs r append n h',
  has_content w p bs -> reads bs r -> load_history_file w h p append = (n, h') ->
  bs <> [] \/ append = false ->
  (h_loaddup h = false -> append = true -> forall t, In t (texts h) -> ~ In c_nl t) ->
  n = Some (length bs) /\
  exists kept, newest (h_maxfile h) ((if append then texts h else []) ++ r) kept /\
    (h_loaddup h = true -> texts h' = kept) /\ (h_loaddup h = false -> last_occ kept (texts h')).
Proof. exact load_reads. Qed.
Print Assumptions C11_load_partial.

Theorem C11_reads_total : forall n bs, length bs <= n -> exists r, reads bs r.
Proof. exact reads_total. Qed.
Print Assumptions C11_reads_total.

Theorem C11_reads_unique : forall bs r, reads bs r <-> entries bs = r.
Proof. exact reads_iff. Qed.
Print Assumptions C11_reads_unique.

Theorem C11_unreadable : forall w h p append, (forall bs, ~ has_content w p bs) ->
  load_history_file w h p append = (None, h).
Proof. exact load_file_missing. Qed.
Print Assumptions C11_unreadable.

(** [load_history] does the same if the size of the file changed ... *)
Theorem C11_load_history_partial : forall w h p bs r append, h_file h = Some p -> has_content w p bs -> reads bs r ->
  length bs <> h_fsize h ->
  (h_loaddup h = false -> append = true -> forall t, In t (texts h) -> ~ In c_nl t) ->
  exists h' kept, load_history w h append = (Some (length bs), h') /\ h_fsize h' = length bs /\
    newest (h_maxfile h) ((if append then texts h else []) ++ r) kept /\
    (h_loaddup h = true -> texts h' = kept) /\ (h_loaddup h = false -> last_occ kept (texts h')).
Proof. exact load_history_reads. Qed.
Print Assumptions C11_load_history_partial.

(** ... and nothing otherwise. *)
Theorem C11_load_history_same_size : forall w h p append, h_file h = Some p ->
  forall bs, has_content w p bs -> length bs = h_fsize h -> bs <> [] ->
  load_history w h append = (Some (length bs), h).
Proof. exact load_history_same. Qed.
Print Assumptions C11_load_history_same_size.

(** The two exceptions are real: appending an empty file keeps more than
    max_file_size entries, and an existing entry with a newline is dropped for
    a different line. *)
Theorem C11_append_empty_refuted : exists w h n h',
  has_content w (str "f") [] /\ load_history_file w h (str "f") true = (n, h') /\
  h_maxfile h = 1 /\ texts h' = [str "a"; str "b"].
Proof.
  exists (mkFs (fun _ => Some (mkFile [] true true)) (fun _ => true)).
  exists (set_max_file_size (set_buffers hist_new (map buf_of [str "a"; str "b"])) 1).
  eexists _, _. split; [eexists; repeat split; reflexivity|]. repeat split; reflexivity.
Qed.
Print Assumptions C11_append_empty_refuted.

Theorem C11_multiline_refuted : exists w h n h',
  has_content w (str "f") [97; 98; 10]%N /\ load_history_file w h (str "f") true = (n, h') /\
  h_loaddup h = false /\ texts h = [str "a" ++ c_nl :: str "b"] /\ texts h' = [str "ab"].
Proof.
  exists (mkFs (fun _ => Some (mkFile [97; 98; 10]%N true true)) (fun _ => true)).
  exists (mkHist [buf_of (str "a" ++ c_nl :: str "b")] None 10 10 false false false 0 false 0).
  eexists _, _. split; [eexists; repeat split; reflexivity|]. repeat split; reflexivity.
Qed.
Print Assumptions C11_multiline_refuted.

Example C11_case : reads [35; 10; 97; 13; 10; 98; 10; 255; 10; 99; 10]%N [str "a"; str "b"].
Proof. apply reads_iff. reflexivity. Qed.

(** ** C12: compaction of a shared history. False as stated: if another process
    wrote to the file, the line being pushed is lost from memory and file. *)
Theorem C12_refuted : exists w a b l a' b' w' f,
  run2 w a b (l ++ [(true, str "LAST")]) = (a', b', w') /\
  Forall (fun h => h_share h = true /\ h_inc h = true /\ h_loaddup h = false /\ h_file h = Some (str "f") /\
                   buffers h = [] /\ h_fsize h = 0 /\ h_compact h = 0) [a; b] /\
  has_content w (str "f") [] /\ fs_files w' (str "f") = Some f /\
  ~ In (str "LAST") (texts a') /\ ~ In (str "LAST") (entries (f_bytes f)).
Proof.
  exists (mkFs (fun _ => Some (mkFile [] true true)) (fun _ => true)).
  exists (mkHist [] (Some (str "f")) 100 100 false true true 0 false 0).
  exists (mkHist [] (Some (str "f")) 100 100 false true true 0 false 0).
  exists ((false, str "other") :: map (fun n => (true, [N.of_nat (97 + n)])) (seq 0 29)).
  eexists _, _, _, _. split; [vm_compute; reflexivity|].
  split; [repeat constructor|]. split; [eexists; repeat split; reflexivity|]. split; [vm_compute; reflexivity|].
  split; vm_compute; intuition discriminate.
Qed.
Print Assumptions C12_refuted.

(** True between compactions and if the file still has the remembered size. *)
Theorem C12_line_kept_partial : forall w h p b bs, h_inc h = true -> h_file h = Some p -> can_write w p -> has_content w p bs ->
  accepts h (data b) -> h_loaddup h = false -> h_share h = true -> 0 < h_maxbuf h -> 0 < h_maxfile h ->
  h_compact h < 29 \/ (length bs = h_fsize h /\ bs <> []) ->
  exists h' w' old, hist_push w h b = (h', w') /\ last_opt (texts h') = Some (data b) /\
    content_set w w' p (old ++ enc (data b) ++ [10%N]).
Proof. exact push_kept. Qed.
Print Assumptions C12_line_kept_partial.

Example C12_case :
  let w := mkFs (fun _ => Some (mkFile [97; 10]%N true true)) (fun _ => true) in
  let h := mkHist [buf_of (str "a")] (Some (str "f")) 10 10 false true true 2 false 29 in
  can_write w (str "f") /\ has_content w (str "f") [97; 10]%N /\ accepts h (str "b") /\
  exists h' w', hist_push w h (buf_of (str "b")) = (h', w') /\ texts h' = [str "a"; str "b"].
Proof.
  split; [eexists; repeat split; reflexivity|]. split; [eexists; repeat split; reflexivity|].
  split; [right; discriminate|]. eexists _, _. split; [reflexivity|]. reflexivity.
Qed.

(** ** C49: otherwise the compaction replaces memory and file by the entries the
    file had; the pushed line is not among them unless the file had it. *)
Theorem C49_shared_compaction : forall w h p b bs r, h_inc h = true -> h_file h = Some p -> can_write w p -> has_content w p bs ->
  reads bs r -> accepts h (data b) -> h_loaddup h = false -> 29 <= h_compact h -> h_share h = true -> length bs <> h_fsize h ->
  exists h' w' kept, hist_push w h b = (h', w') /\ newest (h_maxfile h) r kept /\
    last_occ kept (texts h') /\ content_set w w' p (lines_bytes (texts h')).
Proof. exact push_shared_changed_reads. Qed.
Print Assumptions C49_shared_compaction.

Example C49_case :
  let w := mkFs (fun _ => Some (mkFile [97; 10; 98; 10; 97; 10]%N true true)) (fun _ => true) in
  let h := mkHist [buf_of (str "a")] (Some (str "f")) 10 10 false true true 2 false 29 in
  reads [97; 10; 98; 10; 97; 10]%N [str "a"; str "b"; str "a"] /\
  exists h' w', hist_push w h (buf_of (str "z")) = (h', w') /\ texts h' = [str "b"; str "a"].
Proof. split; [apply reads_iff; reflexivity|]. eexists _, _. split; [reflexivity|]. reflexivity. Qed.

(** ** C13: compaction of an unshared file. The file is rewritten only if the
    result is shorter than the list of entries; otherwise they are the same. *)
Theorem C13_unshared_compaction : forall w h p b bs r, h_inc h = true -> h_file h = Some p -> can_write w p -> has_content w p bs ->
  reads bs r -> accepts h (data b) -> h_loaddup h = false -> 29 <= h_compact h -> h_share h = false ->
  exists h' w' kept L, hist_push w h b = (h', w') /\
    newest (h_maxbuf h) (buffers h ++ [b]) (buffers h') /\
    newest (h_maxfile h) r kept /\ last_occ kept L /\
    ((content_set w w' p (lines_bytes L)) \/ (w' = w /\ L = r)) /\ h_compact h' = 0 /\ h_fsize h' = h_fsize h.
Proof. exact push_compacts_reads. Qed.
Print Assumptions C13_unshared_compaction.

Example C13_case :
  let w := mkFs (fun _ => Some (mkFile [97; 10; 98; 10; 97; 10]%N true true)) (fun _ => true) in
  let h := mkHist [] (Some (str "f")) 10 10 false true false 2 false 29 in
  reads [97; 10; 98; 10; 97; 10]%N [str "a"; str "b"; str "a"] /\
  exists h' w', hist_push w h (buf_of (str "z")) = (h', w') /\ texts h' = [str "z"] /\
    option_map f_bytes (fs_files w' (str "f")) = Some [98; 10; 97; 10]%N.
Proof. split; [apply reads_iff; reflexivity|]. eexists _, _. split; [reflexivity|]. split; reflexivity. Qed.

(** ** C14: crashes while rewriting. False as stated: the file can be found cut. *)
Theorem C14_refuted : exists w p f chunks w' f',
  fs_files w p = Some f /\ f_writable f = true /\ In w' (rewrite_states w p chunks) /\
  fs_files w' p = Some f' /\ f_bytes f' <> f_bytes f /\ f_bytes f' <> concat chunks.
Proof.
  exists (mkFs (fun _ => Some (mkFile [97; 10]%N true true)) (fun _ => true)), (str "f").
  exists (mkFile [97; 10]%N true true), [[98; 10]%N]. eexists _, _.
  split; [reflexivity|]. split; [reflexivity|]. split; [right; left; reflexivity|]. split; [reflexivity|].
  split; discriminate.
Qed.
Print Assumptions C14_refuted.

(** What is true: the old content or a beginning of the new one; the complete
    new content at the end; other files untouched. *)
Theorem C14_old_or_prefix_partial : forall w p chunks f, fs_files w p = Some f -> f_writable f = true ->
  forall w', In w' (rewrite_states w p chunks) ->
  exists f', fs_files w' p = Some f' /\ (forall q, q <> p -> fs_files w' q = fs_files w q) /\
   (f' = f \/ exists post, concat chunks = f_bytes f' ++ post).
Proof. exact rewrite_states_spec. Qed.
Print Assumptions C14_old_or_prefix_partial.

Theorem C14_complete_at_end : forall w p chunks, can_write w p ->
  exists l w', rewrite_states w p chunks = l ++ [w'] /\ content_set w w' p (concat chunks).
Proof. exact rewrite_states_last. Qed.
Print Assumptions C14_complete_at_end.

(** ** C50: a crash while a line is appended loses no earlier entry: what can be
    read afterwards is the old entries and at most one more, a beginning of the
    line. *)
Theorem C50_crash_while_appending : forall w p f t chunks w', fs_files w p = Some f ->
  f_bytes f = [] \/ (exists o, f_bytes f = o ++ [10%N]) ->
  uni_text t -> ~ In c_nl t -> concat chunks = enc t ++ [10%N] ->
  In w' (append_states w p chunks) -> forall r, reads (f_bytes f) r ->
  exists f' r', fs_files w' p = Some f' /\ reads (f_bytes f') r' /\
    (r' = r \/ exists t', is_prefix t' t /\ r' = r ++ [t']).
Proof. exact crash_append. Qed.
Print Assumptions C50_crash_while_appending.

Example C50_case :
  let w := mkFs (fun _ => Some (mkFile [97; 10]%N true true)) (fun _ => true) in
  exists w' f', In w' (append_states w (str "f") [[98; 195]; [169; 10]]%N) /\
    fs_files w' (str "f") = Some f' /\ f_bytes f' = [97; 10; 98; 195]%N /\
    concat [[98; 195]; [169; 10]]%N = enc [98; 233]%N ++ [10%N].
Proof. eexists _, _. split; [right; left; reflexivity|]. repeat split; reflexivity. Qed.

(** ** C15: lookups *)
Theorem C15_search_index : forall h t,
  StronglySorted lt (search_index h (buf_of t)) /\
  (forall i, In i (search_index h (buf_of t)) <->
     t <> [] /\ exists s, nth_error (texts h) i = Some s /\ occurs t s).
Proof. exact search_index_spec. Qed.
Print Assumptions C15_search_index.

Theorem C15_history_subset : forall h t, exists A B,
  get_history_subset h (buf_of t) = A ++ B /\ StronglySorted lt A /\ StronglySorted lt B /\
  (forall i, In i A <-> t <> [] /\ exists s, nth_error (texts h) i = Some s /\ occurs t s /\ s <> t /\ ~ extends t s) /\
  (forall i, In i B <-> t <> [] /\ exists s, nth_error (texts h) i = Some s /\ extends t s).
Proof. exact history_subset_spec. Qed.
Print Assumptions C15_history_subset.

Theorem C15_newest_match : forall h pos t,
  let n := match pos with Some p => p | None => length (texts h) end in
  match get_newest_match h pos (buf_of t) with
  | Some i => i < n /\ t <> [] /\ (exists s, nth_error (texts h) i = Some s /\ extends t s) /\
              (forall j s, i < j < n -> nth_error (texts h) j = Some s -> ~ extends t s)
  | None => forall j s, j < n -> nth_error (texts h) j = Some s -> t = [] \/ ~ extends t s
  end.
Proof. exact newest_match_spec. Qed.
Print Assumptions C15_newest_match.

Example C15_case :
  let h := set_buffers hist_new (map buf_of [str "foo"; str "a foo"; str "foobar"; str "fooz"; str "x"]) in
  search_index h (buf_of (str "foo")) = [0; 1; 2; 3] /\
  get_history_subset h (buf_of (str "foo")) = [1; 2; 3] /\
  get_newest_match h (Some 3) (buf_of (str "foo")) = Some 2 /\ get_newest_match h None (buf_of (str "y")) = None.
Proof. repeat split; reflexivity. Qed.

(** ** C16: remove_duplicates. False as stated for entries with newlines. *)
Theorem C16_refuted : exists h s, texts h = [str "a" ++ c_nl :: str "b"] /\ s = str "ab" /\
  texts (remove_duplicates h s) = [] /\
  texts (remove_duplicates h (str "a" ++ c_nl :: str "b")) = texts h.
Proof.
  exists (set_buffers hist_new [buf_of (str "a" ++ c_nl :: str "b")]), (str "ab"). repeat split; reflexivity.
Qed.
Print Assumptions C16_refuted.

Theorem C16_plain_partial : forall h s, (forall t, In t (texts h) -> ~ In c_nl t) ->
  selects (fun b => data b <> s) (buffers h) (buffers (remove_duplicates h s)).
Proof. exact remove_duplicates_plain. Qed.
Print Assumptions C16_plain_partial.

(** ** C51: it removes exactly the entries whose text without newlines is [s] *)
Theorem C51_remove_duplicates : forall h s,
  selects (fun b => filter (fun c => negb (N.eqb c c_nl)) (data b) <> s) (buffers h)
    (buffers (remove_duplicates h s)).
Proof. exact remove_duplicates_spec. Qed.
Print Assumptions C51_remove_duplicates.

Example C51_case : texts (remove_duplicates (set_buffers hist_new (map buf_of [str "a"; str "b"; str "a"])) (str "a")) = [str "b"].
Proof. reflexivity. Qed.

(** ** C47: the size of the history. False as stated: loading keeps
    max_file_size entries. *)
Theorem C47_refuted : exists w h h', h_maxbuf h = 1 /\ buffers h = [] /\
  load_history_file w h (str "f") false = (Some 4, h') /\ hist_len h' = 2.
Proof.
  exists (mkFs (fun _ => Some (mkFile [97; 10; 98; 10]%N true true)) (fun _ => true)).
  exists (set_max_buffers_size hist_new 1). eexists. repeat split; reflexivity.
Qed.
Print Assumptions C47_refuted.

(** ** C52: no operation makes it exceed both limits, so C47 holds if
    max_file_size <= max_buffers_size. *)
Theorem C52_history_bounded : forall l h w a b, limits a b h -> bounded (Nat.max a b) h ->
  bounded (Nat.max a b) (fst (fold_left run_hop l (h, w))).
Proof. exact session_len. Qed.
Print Assumptions C52_history_bounded.

Theorem C47_within_limit_partial : forall l h w a b, limits a b h -> b <= a -> hist_len h <= a ->
  hist_len (fst (fold_left run_hop l (h, w))) <= a.
Proof.
  exact (fun l h w a b HL Hab H =>
    eq_ind (Nat.max a b) (fun m => hist_len (fst (fold_left run_hop l (h, w))) <= m)
      (session_len l h w a b HL (eq_ind_r (fun m => hist_len h <= m) H (Nat.max_l a b Hab))) a (Nat.max_l a b Hab)).
Qed.
Print Assumptions C47_within_limit_partial.

Example C52_case : limits 1000 1000 hist_new /\ bounded 1000 hist_new.
Proof. split; [split; reflexivity|]. unfold bounded. simpl. lia. Qed.
