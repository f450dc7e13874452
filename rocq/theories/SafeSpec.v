(** Under which conditions the editor is claimed not to panic. *)
From Verif Require Import Base Utf8 BufferModel UtilModel UtilSpec HistoryModel HistorySpec EditorState EditorModel KeymapModel.

Section Safe.
  (** [ascii]: only single-byte characters occur.  [flat]: no newline and no
      backslash (Enter after a backslash inserts a newline).  [srch]: the
      incremental search may be used. *)
  Context (ascii flat srch : bool).

  Definition fits : Prop :=
    (ascii = true \/ flat = true) /\ (srch = true -> ascii = true /\ flat = true).

  Definition ok_char (c : char) : Prop :=
    (ascii = true -> (c < 128)%N) /\ (flat = true -> c <> c_nl /\ c <> c_bs) /\
    (srch = true -> c <> c_esc).
  Definition ok_text (t : text) : Prop := Forall ok_char t.

  (** Measures: longer text is not narrower; for the search, single-byte text
      is as wide as its parts together. *)
  Definition ok_unicode (U : unicode) : Prop :=
    (forall a b, u_width U a <= u_width U (a ++ b)) /\
    (srch = true -> u_striplen U [] = 0 /\ u_width U (str "(search)'") = 9 /\
       forall a b, Forall (fun c => (c < 128)%N /\ c <> c_nl /\ c <> c_esc) (a ++ b) ->
         u_width U (a ++ b) = u_width U a + u_width U b).

  (** Surroundings: words lie in order inside the text, and candidates for
      completion are texts of the permitted kind. *)
  Definition ok_env (E : env) : Prop :=
    ok_unicode (e_uni E) /\
    (forall t, increasing (e_words E t) /\ forall s e, In (s, e) (e_words E t) -> e <= length t) /\
    (forall w, ok_text w -> Forall ok_text (e_complete E w)).

  Definition ok_key (k : key) : Prop :=
    match k with
    | KChar c => c = c_nl \/ c = c_tab \/ ok_char c
    | KCtrl c => srch = true \/ (c <> ch "r" /\ c <> ch "s")
    | _ => True
    end.
End Safe.

(** What a key that closes the session with the error [e] may come to: that
    error, the error of a terminal that refuses the output or cannot tell its
    width, or the overflow of the 16-bit row numbers. *)
Definition ends {S A} (E : env) (e : ioerr) (r : out S A) : Prop :=
  match r with
  | OErr e' _ => e' = e \/ (e' = EOther /\ ~ (e_wok E = true /\ e_size E <> None))
  | OPanic q => q = PU16
  | ORet _ _ | OFuel => False
  end.
