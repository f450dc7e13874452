(** What reading one line gives, by the pure editor of BookSpec.v (C87). *)
From Verif Require Import Base KeymapModel EmacsSpec BookSpec.

(** A line, or what Ctrl-c and Ctrl-d on an empty line give. *)
Inductive reply := Line (t : text) | Interrupted | Eof.

Section Pure.
  Context (words : text -> list (nat * nat)) (hs : list text).

  Definition continues (z : zipper) : bool :=
    match rev (before z) with c :: _ => N.eqb c c_bs | [] => false end.
  (** Enter after a backslash: a line break is typed, and the place in the
      history forgotten. *)
  Definition b_break (b : book) : book :=
    mkBook (z_type c_nl (line b)) (copy b)
      (match off b with
       | Some a => Some (mkAside (typed a) (typed_earlier a) (entry a) (forgotten a) true)
       | None => None
       end).

  (** Keys after the one that ends the line are not looked at.  When the keys
      run out, the line is what it is. *)
  Fixpoint read (ks : list key) (b : book) : reply :=
    match ks with
    | [] => Line (zline (line b))
    | k :: ks' =>
      match k with
      | KChar c =>
        if N.eqb c c_nl
        then if continues (line b) then read ks' (b_break b) else Line (zline (line b))
        else read ks' (b_key words hs k b)
      | KCtrl c =>
        if is_char c "c" then Interrupted
        else if is_char c "d" && same [] (zline (line b)) then Eof
        else read ks' (b_key words hs k b)
      | _ => read ks' (b_key words hs k b)
      end
    end.
End Pure.

(** The keys this is about: all but Tab, the search keys and Alt-<, Alt-> and Alt-. *)
Definition readable (k : key) : Prop := k = KChar c_nl \/ k = KCtrl (ch "c") \/ booked k.
