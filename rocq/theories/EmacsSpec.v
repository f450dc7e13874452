(** A pure line editor: what the Emacs keys should do. *)
From Verif Require Import Base KeymapModel.

(** The text before the cursor, the text after it and the earlier texts of the
    line, latest first. *)
Record zipper := mkZ { before : text; after : text; earlier : list text }.
Definition zline (z : zipper) : text := before z ++ after z.

(** The same line with the cursor before character [n] (or at the end). *)
Definition put_cursor (n : nat) (z : zipper) : zipper :=
  mkZ (firstn n (zline z)) (skipn n (zline z)) (earlier z).
(** A new line, the present one becoming the latest of the earlier ones. *)
Definition change (b a : text) (z : zipper) : zipper := mkZ b a (zline z :: earlier z).

Section Pure.
  (** The words of a text and the texts of the history, oldest first. *)
  Context (words : text -> list (nat * nat)) (hs : list text).

  (** The newest entry that strictly extends a non-empty [t]. *)
  Definition longer (t g : text) : bool :=
    (length t <? length g) && (if list_eq_dec N.eq_dec (firstn (length t) g) t then true else false).
  Definition suggestion (t : text) : option text :=
    match t with [] => None | _ => find (longer t) (rev hs) end.

  (** Start of the last word that starts before the cursor, end of the first
      word that ends after it. *)
  Definition word_left (z : zipper) : option nat :=
    match rev (filter (fun w => fst w <? length (before z)) (words (zline z))) with
    | (s, _) :: _ => Some s
    | [] => None
    end.
  Definition word_right (z : zipper) : option nat :=
    match filter (fun w => length (before z) <? snd w) (words (zline z)) with
    | (_, e) :: _ => Some e
    | [] => None
    end.

  Definition z_type (c : char) (z : zipper) : zipper := change (before z ++ [c]) (after z) z.
  Definition z_backspace (z : zipper) : zipper :=
    match before z with [] => z | _ => change (removelast (before z)) (after z) z end.
  Definition z_delete (z : zipper) : zipper :=
    match after z with [] => z | _ :: r => change (before z) r z end.
  Definition z_kill_before (z : zipper) : zipper := change [] (after z) z.
  Definition z_kill_after (z : zipper) : zipper := change (before z) [] z.
  Definition z_kill_word (z : zipper) : zipper :=
    match word_left z with Some s => change (firstn s (before z)) (after z) z | None => z end.
  Definition z_left (z : zipper) : zipper := put_cursor (length (before z) - 1) z.
  Definition z_right (z : zipper) : zipper := put_cursor (length (before z) + 1) z.
  Definition z_home (z : zipper) : zipper := put_cursor 0 z.
  Definition z_end (z : zipper) : zipper := put_cursor (length (zline z)) z.
  Definition z_word_left (z : zipper) : zipper :=
    match word_left z with Some n => put_cursor n z | None => z end.
  Definition z_word_right (z : zipper) : zipper :=
    match word_right z with Some n => put_cursor n z | None => z end.
  Definition z_undo (z : zipper) : zipper :=
    match earlier z with [] => z | t :: ts => mkZ t [] ts end.
  Definition z_revert (z : zipper) : zipper :=
    match earlier z with [] => z | ts => mkZ (last ts []) [] [] end.
  (** Taking the suggestion, if there is one. *)
  Definition z_accept (z : zipper) (otherwise : zipper) : zipper :=
    match suggestion (zline z) with Some g => change g [] z | None => otherwise end.

  Definition z_key (k : key) (z : zipper) : zipper :=
    match k with
    | KChar c => z_type c z
    | KBackspace => z_backspace z
    | KDelete => z_delete z
    | KLeft => z_left z
    | KRight => match after z with [] => z_accept z z | _ => z_right z end
    | KHome => z_home z
    | KEnd => z_end z
    | KCtrl c =>
      if is_char c "h" then z_backspace z
      else if is_char c "d" then z_delete z
      else if is_char c "b" then z_left z
      else if is_char c "f" then z_accept z (z_right z)
      else if is_char c "a" then z_home z
      else if is_char c "e" then z_end z
      else if is_char c "u" then z_kill_before z
      else if is_char c "k" then z_kill_after z
      else if is_char c "w" then z_kill_word z
      else if is_char c "x" then z_undo z
      else z
    | KAlt c =>
      if is_char c "b" then z_word_left z
      else if is_char c "f" then z_word_right z
      else if N.eqb c c_del then z_kill_word z
      else if is_char c "r" then z_revert z
      else z
    | _ => z
    end.
End Pure.

(** The keys this is about: all but Tab, Enter, Ctrl-c, the history and search
    keys and Alt-. *)
Definition edits (k : key) : Prop :=
  match k with
  | KChar c => c <> c_tab /\ c <> c_nl
  | KCtrl c => ~ In c [ch "c"; ch "p"; ch "n"; ch "r"; ch "s"]
  | KAlt c => ~ In c [ch "<"; ch ">"; ch "."]
  | KUp | KDown => False
  | _ => True
  end.

(** The entries from the newest, or from the one being shown, backwards. *)
Definition backwards (hs : list text) (loc : option nat) : list text :=
  match loc with None => rev hs | Some i => rev (firstn (S i) hs) end.
