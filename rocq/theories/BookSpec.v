(** The pure editor of EmacsSpec.v with a history to walk through (C85). *)
From Verif Require Import Base KeymapModel EmacsSpec.

(** While a recalled line is shown: the new line put aside and its earlier
    texts, the recalled line as it is in the history, which of the offered
    lines it is (1 the nearest; none if that was forgotten) and whether its
    copy was edited. *)
Record aside := mkAside { typed : text; typed_earlier : list text; entry : text; place : option nat; edited : bool }.

(** The line shown; the copy of a recalled line that was edited last, with its
    earlier texts. *)
Record book := mkBook { line : zipper; copy : list text; off : option aside }.

Section Pure.
  Context (words : text -> list (nat * nat)) (hs : list text).

  Definition same (t x : text) : bool := if list_eq_dec N.eq_dec t x then true else false.
  Definition inside (t x : text) : bool :=
    existsb (fun n => same t (firstn (length t) (skipn n x))) (seq 0 (S (length x))).
  (** The lines Up offers: all of them, or those that begin with the text typed
      and then those that contain it elsewhere; newest first. *)
  Definition offers (t : text) : list text :=
    match t with
    | [] => rev hs
    | _ => filter (longer t) (rev hs) ++ filter (fun x => inside t x && negb (longer t x) && negb (same t x)) (rev hs)
    end.

  (** A recalled line is copied when it is first edited: the copy before becomes
      its past. *)
  Definition show (t : text) (te : list text) (g : text) (p : option nat) (c : list text) : book :=
    mkBook (mkZ g [] ([] :: c)) c (Some (mkAside t te g p false)).
  Definition last_copy (b : book) : list text :=
    match off b with
    | Some a => if edited a then zline (line b) :: earlier (line b) else copy b
    | None => copy b
    end.

  Definition b_up (b : book) : book :=
    match off b with
    | None =>
      match offers (zline (line b)) with
      | [] => mkBook (z_end (line b)) (copy b) None
      | g :: _ => show (zline (line b)) (earlier (line b)) g (Some 1) (copy b)
      end
    | Some a =>
      let L := offers (typed a) in
      let p := match place a with Some p => Nat.min (length L) (S p) | None => 1 end in
      show (typed a) (typed_earlier a) (nth (p - 1) L []) (Some p) (last_copy b)
    end.
  Definition b_down (b : book) : book :=
    match off b with
    | None => mkBook (z_end (line b)) (copy b) None
    | Some a =>
      match place a with
      | None => show (typed a) (typed_earlier a) (entry a) None (last_copy b)
      | Some 1 => mkBook (mkZ (typed a) [] (typed_earlier a)) (last_copy b) None
      | Some p => show (typed a) (typed_earlier a) (nth (p - 2) (offers (typed a)) []) (Some (p - 1)) (last_copy b)
      end
    end.

  (** Ctrl-l and accepting a suggestion forget the place, unless nothing was typed. *)
  Definition forgotten (a : aside) : option nat := match typed a with [] => place a | _ => None end.
  (** The key accepts a suggestion, if there is one. *)
  Definition takes (k : key) (z : zipper) : bool :=
    match k with
    | KRight => match after z with [] => true | _ => false end
    | KCtrl c => is_char c "f"
    | _ => false
    end.

  (** The key changes the line, or would if there were something to delete: the
      recalled line is copied. *)
  Definition writes (k : key) (z : zipper) : bool :=
    let left_of := match before z with [] => false | _ => true end in
    let word := match word_left words z with Some _ => true | None => false end in
    match k with
    | KChar _ | KDelete => true
    | KBackspace => left_of
    | KCtrl c =>
      if is_char c "h" then left_of
      else if is_char c "w" then word
      else is_char c "d" || is_char c "u" || is_char c "k" || is_char c "x"
    | KAlt c => if N.eqb c c_del then word else is_char c "r"
    | _ => false
    end.

  (** Editing keys.  The suggestion for a recalled line is the line itself, as
      long as it has not been edited; then there is none. *)
  Definition b_edit (k : key) (b : book) : book :=
    let z := line b in
    match off b with
    | None => mkBook (z_key words hs k z) (copy b) None
    | Some a =>
      if takes k z && negb (edited a)
      then mkBook (change (zline z) [] z) (copy b) (Some (mkAside (typed a) (typed_earlier a) (entry a) (forgotten a) true))
      else
        let p := match k with KCtrl c => if is_char c "l" then forgotten a else place a | _ => place a end in
        mkBook (z_key words [] k z) (copy b) (Some (mkAside (typed a) (typed_earlier a) (entry a) p (edited a || writes k z)))
    end.

  Definition b_key (k : key) (b : book) : book :=
    match k with
    | KUp => b_up b
    | KDown => b_down b
    | KCtrl c => if is_char c "p" then b_up b else if is_char c "n" then b_down b else b_edit k b
    | _ => b_edit k b
    end.
End Pure.

(** The keys this is about: all but Tab, Enter, Ctrl-c, the search keys and
    Alt-<, Alt-> and Alt-. *)
Definition booked (k : key) : Prop :=
  match k with
  | KUp | KDown => True
  | KCtrl c => ~ In c [ch "c"; ch "r"; ch "s"]
  | _ => edits k
  end.
