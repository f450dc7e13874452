(** Specifications for [FilenameCompleter] (C45, C67). *)
From Verif Require Import Base Utf8 BufferModel BufferSpec UtilSpec CompleteModel.

Definition quote (c : char) : Prop := c = 34%N \/ c = 39%N.

(** What the completer takes the word to mean: the text tested for being empty
    and the path. *)
Inductive unquoted : text -> text -> text -> Prop :=
| uq_lone : forall q, quote q -> unquoted [q] [] []
| uq_quoted : forall q a c, quote q -> unquoted (q :: a ++ [c]) a a
| uq_plain : forall t, (forall q r, t = q :: r -> ~ quote q) ->
    unquoted t t (replace (c_bs :: [c_sp]) [c_sp] t).

(** The path inside the working directory. *)
Definition in_dir (wd : option text) (o : text) : text :=
  match wd with Some w => path_push w o | None => o end.

(** The path is "." possibly followed by "/" and "/." pieces. *)
Definition only_cur (p : text) : Prop :=
  exists l, p = glue c_slash ([c_dot] :: l) /\ Forall (fun x => x = [] \/ x = [c_dot]) l.

Definition ends_slash (t : text) : Prop := exists a, t = a ++ [c_slash].

Definition slashed (p : text) : Prop := p = [] \/ ends_slash p.

(** Spaces with a backslash before them. *)
Definition escape (t : text) : text := flat_map (fun c => if N.eqb c c_sp then [c_bs; c_sp] else [c]) t.

(** Paths that need no rewriting: not empty, not ending in "/" or "/." *)
Definition tidy (q : text) : Prop :=
  exists a x, q = a ++ x /\ (a = [] \/ ends_slash a) /\ x <> [] /\ x <> [c_dot] /\ ~ In c_slash x.

(** [dir_text d q]: [d] is the part of a path before its last name and [q] the
    directory it names. *)
Inductive dir_text : text -> text -> Prop :=
| dt_none : dir_text [] []
| dt_root : dir_text [c_slash] [c_slash]
| dt_some : forall q, tidy q -> dir_text (q ++ [c_slash]) q.

(** The directory read for it. *)
Inductive read_from : option text -> text -> text -> Prop :=
| rf_none : forall d q, dir_text d q -> read_from None d q
| rf_abs : forall w d q, dir_text d q -> is_absolute d = true -> read_from (Some w) d q
| rf_here : forall w, w = [c_slash] \/ tidy w -> read_from (Some w) [] w
| rf_root : forall d q, dir_text d q -> d <> [] -> is_absolute d = false -> read_from (Some [c_slash]) d (c_slash :: q)
| rf_sub : forall w d q, tidy w -> dir_text d q -> d <> [] -> is_absolute d = false ->
    read_from (Some w) d (w ++ c_slash :: q).

(** A name: not empty, no "/", neither "." nor ".." *)
Definition a_name (n : text) : Prop := n <> [] /\ ~ In c_slash n /\ n <> [c_dot] /\ n <> [c_dot; c_dot].

(** The candidate for a directory entry. *)
Definition candidate (d : text) (e : text * bool) : text :=
  escape (d ++ fst e ++ (if snd e then [c_slash] else [])).

(** What a directory can contain: names that are not empty and have no "/". *)
Definition entry_ok (e : text * bool) : Prop := fst e <> [] /\ ~ In c_slash (fst e).
