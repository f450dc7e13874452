(** Specification of browsing the history (C24): which keys only move. *)
From Verif Require Import Base EditorState EditorModel KeymapModel ViModel.

(** Keys that move through the history or within the line, Emacs. *)
Definition emacs_moves (_ : emacs) (k : key) : Prop :=
  In k ([KUp; KDown; KLeft; KHome; KEnd] ++ map KCtrl (str "pnabe") ++ map KAlt (str "<>bf")).

(** The same for Vi, where it depends on the mode: the named keys in normal and
    insert mode, the letters in normal mode. *)
Definition vi_moves (v : vi) (k : key) : Prop :=
  ((v_stack v = [] \/ v_stack v = [MInsert]) /\ In k [KUp; KDown; KLeft; KHome; KEnd]) \/
  (v_stack v = [] /\ In k (map KChar (str "hjklwWeEbB0123456789^$ "))).

(** [browse moves edits core x y]: a run from [x] to [y] in which every key
    either only moves, or is Right (Ctrl-f) with no suggestion to accept, or is
    one of [edits] pressed while a recalled entry is shown and no search is on. *)
Inductive browse {K} (moves : K -> key -> Prop) (edits : key -> Prop)
  (core : env -> key -> MK K unit) : K * ed -> K * ed -> Prop :=
| browse_nil : forall x, browse moves edits core x x
| browse_key : forall E k x y z,
    (moves (fst x) k \/
     (moves (fst x) KLeft /\ (k = KRight \/ k = KCtrl (ch "f")) /\ ed_sugg (snd x) = None) \/
     (ed_loc (snd x) <> None /\ is_search (snd x) = false /\ edits k)) ->
    handle_key core E k x = ORet false y -> browse moves edits core y z ->
    browse moves edits core x z.

Definition emacs_browse := browse emacs_moves (fun _ => True) emacs_core.
(** Vi's [.] is left out: it can replay text as commands (see C24_dot_refuted). *)
Definition vi_browse := browse vi_moves (fun k => k <> kch ".") vi_core.
