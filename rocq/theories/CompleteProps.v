(** Properties of [FilenameCompleter] (src/complete.rs): C45 and the added C67. *)
From Verif Require Import Base Utf8 BufferModel UtilModel UtilSpec CompleteModel CompleteSpec CompleteProofs.

(** ** C45: FilenameCompleter never panics.  False: *)
Theorem C45_refuted : exists rd lower p, filename_completions rd lower None true (str ".") = Pan p.
Proof. exists (fun _ => None), (fun t => t), PUnwrap. reflexivity. Qed.
Print Assumptions C45_refuted.

(** Exactly when it panics: the word is quoted and the character dropped from
    its end takes more than one byte, or the path completed is "." (and the
    word is not empty and does not end in "/"). *)
Theorem C45_exactly_partial : forall rd lower wd cs start,
  (exists p, filename_completions rd lower wd cs start = Pan p) <->
  (exists q a c, start = q :: a ++ [c] /\ quote q /\ 1 < clen c) \/
  (exists t o, unquoted start t o /\ t <> [] /\ ~ ends_slash o /\ only_cur (in_dir wd o)).
Proof. exact filename_panics. Qed.
Print Assumptions C45_exactly_partial.

Example C45_case :
  filename_completions (fun _ => None) (fun t => t) None true (34%N :: str "a" ++ [233%N]) = Pan PBoundary /\
  filename_completions (fun _ => None) (fun t => t) (Some (str ".")) true (str ".") = Pan PUnwrap /\
  filename_completions (fun _ => None) (fun t => t) (Some (str "/home")) true (str ".") = Val [].
Proof. vm_compute. auto. Qed.

(** ** C67: the candidates of FilenameCompleter *)
Theorem C67_names : forall rd lower wd cs d q n es,
  read_from wd d q -> a_name n -> ~ In c_bs (d ++ n) -> (forall x r, d ++ n = x :: r -> ~ quote x) ->
  rd q = Some es -> Forall entry_ok es ->
  let fold_ t := if cs : bool then t else lower t in
  exists sel, selects (fun e => is_prefix (fold_ n) (fold_ (fst e))) es sel /\
    filename_completions rd lower wd cs (escape (d ++ n)) = Val (map (candidate d) sel).
Proof. exact filename_names. Qed.
Print Assumptions C67_names.

(** After a "/" (or for an empty word) every entry of that directory. *)
Theorem C67_directory : forall rd lower wd cs d es,
  slashed d -> ~ In c_bs d -> (forall x r, d = x :: r -> ~ quote x) ->
  rd (in_dir wd d) = Some es -> Forall entry_ok es ->
  filename_completions rd lower wd cs (escape d) = Val (map (candidate d) es).
Proof. exact filename_all. Qed.
Print Assumptions C67_directory.

Example C67_case :
  let rd (p : text) := if text_eqb p (str "/w/my dir")
    then Some [(str "foo", false); (str "bar", false); (str "fo d", true)] else None in
  read_from (Some (str "/w")) (str "my dir/") (str "/w/my dir") /\ a_name (str "fo") /\
  (exists es, rd (str "/w/my dir") = Some es /\ Forall entry_ok es) /\
  escape (str "my dir/fo") = str "my\ dir/fo" /\
  filename_completions rd (fun t => t) (Some (str "/w")) true (str "my\ dir/fo")
    = Val [str "my\ dir/foo"; str "my\ dir/fo\ d/"].
Proof.
  cbv zeta. split; [|split; [|split]].
  - apply (rf_sub (str "/w") (str "my dir/") (str "my dir")).
    + exists (str "/"), (str "w"). repeat split; try discriminate; [right; exists []; reflexivity|].
      intros [C|[]]; discriminate.
    + apply (dt_some (str "my dir")). exists [], (str "my dir"). repeat split; try discriminate; [left; reflexivity|].
      cbn. intuition discriminate.
    + discriminate.
    + reflexivity.
  - repeat split; try discriminate. cbn. intuition discriminate.
  - eexists. split; [reflexivity|]. repeat constructor; cbn; try discriminate; intuition discriminate.
  - vm_compute. auto.
Qed.
