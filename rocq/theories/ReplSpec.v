(** Specification of a program that reads line after line (C76). *)
From Verif Require Import Base BufferModel UtilModel HistoryModel HistorySpec EditorState.

(** The history is not shared, writes nothing when a line is pushed, and has
    room for a line; its size respects its limit. *)
Definition private_history (h : history) : Prop :=
  h_share h = false /\ (h_file h = None \/ h_inc h = false) /\ 0 < h_maxbuf h /\ length (texts h) <= h_maxbuf h.

(** The lines remembered after [L] was entered on top of [old]. *)
Definition remembered (h : history) (old L mem : list text) : Prop :=
  newest (h_maxbuf h) (old ++ (if h_appdup h then L else collapse (last_opt old) L)) mem.

(** The history file [p] holds the lines [r], or does not exist yet. *)
Definition starts_with_lines (w : fs) (p : path) (r : list text) : Prop :=
  (exists bs, has_content w p bs /\ reads bs r /\ can_write w p) \/
  (fs_files w p = None /\ fs_can_create w p = true /\ r = []).

(** Lines as they are when read from a file or pushed: without anything to undo. *)
Definition nothing_to_undo (h : history) : Prop := Forall (fun b => actions b = [] /\ undone b = []) (buffers h).
