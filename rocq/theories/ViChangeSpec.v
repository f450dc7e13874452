(** Vocabulary for the properties of [r], [~], counted [u] and [.]. *)
From Verif Require Import Base BufferModel EditorState EditorModel KeymapModel ViModel EditorSpec ViSpec.
Local Open Scope monad_scope.

(** A letter with its case swapped. *)
Definition swap_case (U : unicode) (x : char) : text :=
  if u_lower U x then u_toupper U x else if u_upper U x then u_tolower U x else [x].

(** The keys that begin (or are) a command of the normal mode, other than [~] and [.]; the digits,
    which make up a count, are not among them. *)
Definition starts_command (k : key) : bool :=
  match k with
  | KEsc | KLeft | KRight | KUp | KDown | KBackspace | KDelete => true
  | KChar c => existsb (N.eqb c) (str "iaIAsCdcDrtTfFghl kjwWeEbB^$xu;,")
  | _ => false
  end.
