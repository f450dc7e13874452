(** Specification of walking through the history with Up and Down (C73). *)
From Verif Require Import Base BufferModel UtilModel BufferSpec UtilSpec HistoryModel HistorySpec EditorState EditorModel KeymapModel ViModel BrowseSpec.

(** The lines that Up offers, nearest first, for the history [H] (oldest line
    first) and the text [t] of the new line: with nothing typed all of them,
    newest first; otherwise first the lines that start with [t], newest first,
    and then those that contain it elsewhere, newest first. *)
Definition offered (H : list text) (t : text) (L : list text) : Prop :=
  match t with
  | [] => L = rev H
  | _ :: _ => exists A B, selects (extends t) H A /\ selects (fun x => occurs t x /\ x <> t /\ ~ extends t x) H B /\
                     L = rev A ++ rev B
  end.

(** The key is left to the key map or starts a completion; it does not finish
    the line, accept a suggestion, start a search or clear the screen. *)
Definition quiet (k : key) (s : ed) : Prop :=
  match k with
  | KChar c => c <> c_nl
  | KRight => ed_sugg s = None \/
      forall b, cur_buf s = Val b -> ed_cursor s + (if ed_noeol s then 1 else 0) < num_chars b
  | KCtrl c => ~ In c (str "lrsc") /\ (c = ch "f" -> ed_sugg s = None)
  | _ => True
  end.

(** Walking: place 0 is the new line, place [i] the [i]-th of [n] offered
    lines.  [nav] tells which keys go up ([Some true]) and down ([Some false]).
    In between there may be keys of [stays], and on an offered line keys of
    [edits] too. *)
Inductive walk {K} (nav : K -> key -> option bool) (stays edits : K -> key -> Prop)
  (core : env -> key -> MK K unit) (n : nat) : K * ed -> nat -> K * ed -> nat -> Prop :=
| walk_nil : forall x p, walk nav stays edits core n x p x p
| walk_up : forall E k x p y z q,
    walk nav stays edits core n x p y q -> nav (fst y) k = Some true ->
    handle_key core E k y = ORet false z -> walk nav stays edits core n x p z (Nat.min n (S q))
| walk_down : forall E k x p y z q,
    walk nav stays edits core n x p y q -> nav (fst y) k = Some false ->
    handle_key core E k y = ORet false z -> walk nav stays edits core n x p z (q - 1)
| walk_key : forall E k x p y z q,
    walk nav stays edits core n x p y q -> nav (fst y) k = None ->
    stays (fst y) k \/ (0 < q /\ edits (fst y) k) -> quiet k (snd y) ->
    handle_key core E k y = ORet false z -> walk nav stays edits core n x p z q.

(** Emacs *)
Definition emacs_nav (_ : emacs) (k : key) : option bool :=
  match k with
  | KUp => Some true
  | KDown => Some false
  | KCtrl c => if is_char c "p" then Some true else if is_char c "n" then Some false else None
  | _ => None
  end.
Definition emacs_stays (_ : emacs) (k : key) : Prop :=
  In k ([KLeft; KRight; KHome; KEnd] ++ map KCtrl (str "abef") ++ map KAlt (str "bf")).
Definition emacs_edits (_ : emacs) (k : key) : Prop := k <> KAlt (ch "<") /\ k <> KAlt (ch ">").
Definition emacs_walk := walk emacs_nav emacs_stays emacs_edits emacs_core.

(** Vi: the arrow keys in insert and in normal mode, [k] and [j] in normal mode. *)
Definition vi_nav (v : vi) (k : key) : option bool :=
  match v_stack v with
  | [] => match k with
          | KUp => Some true
          | KDown => Some false
          | KChar c => if is_char c "k" then Some true else if is_char c "j" then Some false else None
          | _ => None
          end
  | [MInsert] => match k with KUp => Some true | KDown => Some false | _ => None end
  | _ => None
  end.
Definition vi_stays (v : vi) (k : key) : Prop :=
  ((v_stack v = [] \/ v_stack v = [MInsert]) /\ In k [KLeft; KRight; KHome; KEnd]) \/
  (v_stack v = [] /\ In k (map KChar (str "hlwWeEbB0123456789^$ "))).
Definition vi_edits (_ : vi) (k : key) : Prop := k <> kch ".".
Definition vi_walk := walk vi_nav vi_stays vi_edits vi_core.
