(** Properties C01-C07 of src/buffer.rs. *)
From Verif Require Import Base Utf8 BufferModel BufferSpec BufferProofs BufferGroups Utf8Proofs
  Lemmas TextProofs.

(** ** C01: edits are exact splices *)

Theorem C01_edit_is_splice : forall b e d, spliced e (data b) d ->
  exists b', run_edit b e = Val b' /\ data b' = d.
Proof. exact run_edit_spliced. Qed.
Print Assumptions C01_edit_is_splice.

(** Every edit inside the text is such a splice (so it does not panic) ... *)
Theorem C01_in_range_edit_is_a_splice : forall d e, edit_in_range (length d) e ->
  exists d', spliced e d d'.
Proof. exact in_range_spliced. Qed.
Print Assumptions C01_in_range_edit_is_a_splice.

(** ... every other one panics, except the empty insertion, which does nothing. *)
Theorem C01_out_of_range_panics : forall b e, ~ edit_in_range (length (data b)) e ->
  (forall s, e <> EInsert s []) -> exists p, run_edit b e = Pan p.
Proof. exact run_edit_pan. Qed.
Print Assumptions C01_out_of_range_panics.

Theorem C01_empty_insert : forall b s, exists b', buf_insert b s [] = Val b' /\ data b' = data b.
Proof. exact empty_insert. Qed.
Print Assumptions C01_empty_insert.

Theorem C01_remove_returns_length : forall b a m c, data b = a ++ m ++ c ->
  exists b', buf_remove b (length a) (length a + length m) = Val (length m, b') /\
             data b' = a ++ c.
Proof. exact remove_count. Qed.
Print Assumptions C01_remove_returns_length.

Example C01_case : spliced (EInsert 1 (str "XY")) (str "abc") (str "aXYbc")
  /\ spliced (ERemove 1 3) (str "abcd") (str "ad") /\ spliced (ETruncate 2) (str "abc") (str "ab")
  /\ ~ edit_in_range (length (str "abc")) (ERemove 2 4).
Proof.
  split; [exact (spliced_insert (str "a") (str "XY") (str "bc"))|].
  split; [exact (spliced_remove (str "a") (str "bc") (str "d"))|].
  split; [exact (spliced_truncate (str "ab") (str "c"))|]. simpl. lia.
Qed.

(** ** C02: one undo reverts exactly the last edit or closed group *)

(** The property says "any edit"; it fails for one edit that is accepted by
    [insert] although it lies outside the text. *)
Theorem C02_refuted : exists b b', run_edit b (EInsert 1 []) = Val b' /\
  (exists p, buf_undo b' = Pan p).
Proof. exact undo_far_empty_insert. Qed.
Print Assumptions C02_refuted.

(** For edits inside the text and for properly nested groups, none of them
    empty, it holds: the text and the remaining undo history are those from
    before. *)
Theorem C02_undo_reverts_last_edit_partial : forall b e b',
  edit_in_range (length (data b)) e -> run_edit b e = Val b' ->
  exists b'', buf_undo b' = Val (true, b'') /\ data b'' = data b /\ actions b'' = actions b.
Proof. exact undo_edit. Qed.
Print Assumptions C02_undo_reverts_last_edit_partial.

Theorem C02_undo_reverts_last_group : forall b i b',
  no_empty_group i -> item_in_range b i -> run_item b i = Val b' ->
  exists b'', buf_undo b' = Val (true, b'') /\ data b'' = data b /\ actions b'' = actions b.
Proof. exact undo_item. Qed.
Print Assumptions C02_undo_reverts_last_group.

(** A group that starts with an empty group is taken back together with the edit
    before it. *)
Theorem C02_empty_nested_group_refuted : exists b i b' b'',
  item_in_range b i /\ run_item b i = Val b' /\ buf_undo b' = Val (true, b'') /\
  data b'' <> data b.
Proof. exact undo_empty_nested. Qed.
Print Assumptions C02_empty_nested_group_refuted.

Example C02_case : no_empty_group example_group /\ item_in_range (buf_of (str "abc")) example_group
  /\ exists b', run_item (buf_of (str "abc")) example_group = Val b' /\ data b' = str "y".
Proof.
  split; [simpl; repeat split; congruence|]. split.
  - in_range.
  - eexists. split; vm_compute; reflexivity.
Qed.

(** ** C03: redo restores what undo took back *)

Theorem C03_redo_all_after_undos : forall t b n, reach t b ->
  exists b' r r', undo_n n b = Val b' /\ redo_to_end b r /\ redo_to_end b' r' /\
                  data r' = data r.
Proof. exact redo_after_undos. Qed.
Print Assumptions C03_redo_all_after_undos.

(** The end of redoing is unique, so the statement above determines it. *)
Theorem C03_redo_to_end_deterministic : forall b r1 r2,
  redo_to_end b r1 -> redo_to_end b r2 -> r1 = r2.
Proof. exact redo_to_end_det. Qed.
Print Assumptions C03_redo_to_end_deterministic.

(** In particular, if nothing had been undone it is the text itself. *)
Theorem C03_latest_text : forall t b n, reach t b -> undone b = [] ->
  exists b' r', undo_n n b = Val b' /\ redo_to_end b' r' /\ data r' = data b.
Proof. exact redo_after_undos_latest. Qed.
Print Assumptions C03_latest_text.

(** [undo] followed by [redo] is not always the identity: an unclosed group
    makes redo go further than undo went back. *)
Theorem C03_undo_redo_refuted : exists ops b b1 b2,
  run_ops (buf_of []) ops = Val b /\ buf_undo b = Val (true, b1) /\
  buf_redo b1 = Val (true, b2) /\ data b2 <> data b.
Proof. exact undo_redo_counterexample. Qed.
Print Assumptions C03_undo_redo_refuted.

(** It is the identity (on text and both stacks) when groups are closed and not
    empty. *)
Theorem C03_undo_redo_partial : forall b, grouped b ->
  exists r b', buf_undo b = Val (r, b') /\
    (r = true -> buf_redo b' = Val (true, b)) /\ (r = false -> b' = b).
Proof. exact grouped_undo_redo. Qed.
Print Assumptions C03_undo_redo_partial.

Theorem C03_redo_undo_partial : forall b, grouped b ->
  exists r b', buf_redo b = Val (r, b') /\
    (r = true -> buf_undo b' = Val (true, b)) /\ (r = false -> b' = b).
Proof. exact grouped_redo_undo. Qed.
Print Assumptions C03_redo_undo_partial.

Example C03_case : exists b, grouped b /\ data b = str "abXYZ" /\ length (actions b) = 4.
Proof.
  eexists. split; [|split; [|]].
  - eapply (gr_item _ (IGroup [IEdit (EInsert 2 (str "XY")); IEdit (EInsert 4 (str "Z"))]));
      [apply (gr_new (str "ab"))|simpl; repeat split; discriminate| |reflexivity].
    in_range.
  - reflexivity.
  - reflexivity.
Qed.
Example C03_case_reach : exists b, reach (str "ab") b /\ data b = str "ab" /\ undone b <> [].
Proof.
  eexists. split; [|split].
  - eapply (reach_op _ _ OUndo); [|discriminate|exact I|].
    + eapply (reach_op _ _ (OEdit (EInsert 1 (str "x")))); [apply reach_new|discriminate| |reflexivity].
      simpl. lia.
    + reflexivity.
  - reflexivity.
  - discriminate.
Qed.

(** ** C04: revert restores the original text *)

(** As stated (every sequence of public operations) it fails, again because of
    the out-of-range empty insertion. *)
Theorem C04_refuted : exists ops b p, run_ops (buf_of []) ops = Val b /\ buf_revert b = Pan p.
Proof. exact revert_counterexample. Qed.
Print Assumptions C04_refuted.

Theorem C04_revert_restores_original_partial : forall t b, reach t b ->
  (exists r b', buf_revert b = Val (r, b') /\ data b' = t) /\
  (exists r b', buf_undo b = Val (r, b')) /\ (exists r b', buf_redo b = Val (r, b')).
Proof. exact reach_revert. Qed.
Print Assumptions C04_revert_restores_original_partial.

(** [revert] answers whether there was anything to take back. *)
Theorem C04_revert_answer : forall t b, reach t b ->
  exists b', buf_revert b = Val (nonempty (actions b), b') /\ data b' = t /\ actions b' = [].
Proof. exact reach_revert_answer. Qed.
Print Assumptions C04_revert_answer.

Example C04_case : exists b, reach (str "ab") b /\ data b = str "" /\ length (actions b) = 3.
Proof.
  eexists. split; [|split].
  - eapply (reach_op _ _ OStart); [|discriminate|exact I|reflexivity].
    eapply (reach_op _ _ OEnd); [|discriminate|exact I|reflexivity].
    eapply (reach_op _ _ (OEdit (ETruncate 0))); [apply reach_new|discriminate| |reflexivity].
    simpl. lia.
  - reflexivity.
  - reflexivity.
Qed.

(** ** C05: a new edit forgets the redo history *)

Theorem C05_edit_forgets_redo : forall b e b', run_edit b e = Val b' ->
  buf_redo b' = Val (false, b').
Proof. exact edit_then_redo. Qed.
Print Assumptions C05_edit_forgets_redo.

Example C05_case : exists b b', undone b = [AInsert 0 (str "x")] /\
  run_edit b (EInsert 0 (str "y")) = Val b'.
Proof. exists (mkBuf [] [] [AInsert 0 (str "x")]). eexists. split; reflexivity. Qed.

(** ** C06: predicates *)

Theorem C06_starts_with : forall b o,
  starts_with b o = true <-> data o <> [] /\ extends (data o) (data b).
Proof. exact starts_with_iff. Qed.
Print Assumptions C06_starts_with.

Theorem C06_contains : forall b p,
  contains b p = true <-> data p <> [] /\ occurs (data p) (data b).
Proof. exact contains_iff. Qed.
Print Assumptions C06_contains.

Theorem C06_last_arg : forall b w, last_arg b = Some w <-> is_last_word w (data b).
Proof. exact last_arg_iff. Qed.
Print Assumptions C06_last_arg.

Theorem C06_last_arg_none : forall b,
  last_arg b = None <-> (forall c, In c (data b) -> c = c_sp).
Proof. exact last_arg_none. Qed.
Print Assumptions C06_last_arg_none.

Theorem C06_equality : forall a b, buf_eqb a b = true <-> data a = data b.
Proof. exact buf_eqb_iff. Qed.
Print Assumptions C06_equality.

Example C06_case : extends (str "ab") (str "abc") /\ occurs (str "bc") (str "abcd")
  /\ is_last_word (str "two") (str "one two  ").
Proof.
  split; [exists (ch "c"), []; reflexivity|]. split; [exists (str "a"), (str "d"); reflexivity|].
  split; [discriminate|]. split.
  - intro H. vm_compute in H. repeat destruct H as [H|H]; try discriminate. exact H.
  - exists (str "one "), 2. split; [reflexivity|]. right. exists (str "one"). reflexivity.
Qed.

(** ** C07: conversions *)

Theorem C07_string_round_trip : forall t, buf_string (buf_of t) = t.
Proof. exact buf_string_of. Qed.
Print Assumptions C07_string_round_trip.

Theorem C07_num_bytes : forall b, num_bytes b = length (as_bytes b).
Proof. exact num_bytes_length. Qed.
Print Assumptions C07_num_bytes.

Theorem C07_bytes_decode : forall b, Forall (fun c => scalar c = true) (data b) ->
  dec (as_bytes b) = Some (data b).
Proof. exact bytes_decode. Qed.
Print Assumptions C07_bytes_decode.

Theorem C07_decode_is_inverse : forall bs t, dec bs = Some t ->
  Forall (fun c => scalar c = true) t /\ bs = as_bytes (buf_of t).
Proof. exact dec_inv. Qed.
Print Assumptions C07_decode_is_inverse.

Theorem C07_lines : forall b l, buf_lines b = l <->
  l <> [] /\ glue c_nl l = data b /\ Forall (fun p => ~ In c_nl p) l.
Proof. exact lines_iff. Qed.
Print Assumptions C07_lines.

Example C07_case : Forall (fun c => scalar c = true) [233; 128512; 97; 55295; 1114111]%N
  /\ as_bytes (buf_of [233]%N) = [195; 169]%N
  /\ buf_lines (buf_of (str "a" ++ [c_nl; c_nl])) = [str "a"; []; []].
Proof. split; [repeat constructor|split; reflexivity]. Qed.

(** ** C53-C55: C02-C04 with the conditions they need *)
Theorem C53_undo_last_edit : forall b e b',
  edit_in_range (length (data b)) e -> run_edit b e = Val b' ->
  exists b'', buf_undo b' = Val (true, b'') /\ data b'' = data b /\ actions b'' = actions b.
Proof. exact undo_edit. Qed.
Print Assumptions C53_undo_last_edit.

Theorem C53_undo_last_group : forall b i b',
  no_empty_group i -> item_in_range b i -> run_item b i = Val b' ->
  exists b'', buf_undo b' = Val (true, b'') /\ data b'' = data b /\ actions b'' = actions b.
Proof. exact undo_item. Qed.
Print Assumptions C53_undo_last_group.

Theorem C54_undo_then_redo : forall b, grouped b ->
  exists r b', buf_undo b = Val (r, b') /\
    (r = true -> buf_redo b' = Val (true, b)) /\ (r = false -> b' = b).
Proof. exact grouped_undo_redo. Qed.
Print Assumptions C54_undo_then_redo.

Theorem C54_redo_then_undo : forall b, grouped b ->
  exists r b', buf_redo b = Val (r, b') /\
    (r = true -> buf_undo b' = Val (true, b)) /\ (r = false -> b' = b).
Proof. exact grouped_redo_undo. Qed.
Print Assumptions C54_redo_then_undo.

Theorem C55_revert : forall t b, reach t b ->
  (exists r b', buf_revert b = Val (r, b') /\ data b' = t) /\
  (exists r b', buf_undo b = Val (r, b')) /\ (exists r b', buf_redo b = Val (r, b')).
Proof. exact reach_revert. Qed.
Print Assumptions C55_revert.

(** ** C61: print_rest writes and counts exactly the bytes after a position *)
Theorem C61_print_rest : forall b a r, data b = a ++ r ->
  print_rest b (length a) = (enc r, length (enc r)).
Proof. exact print_rest_out. Qed.
Print Assumptions C61_print_rest.

Example C61_case : print_rest (buf_of (str "ab" ++ [233%N])) 1 = ([98%N; 195%N; 169%N], 3).
Proof. reflexivity. Qed.
