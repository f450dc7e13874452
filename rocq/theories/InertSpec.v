(** Keys that have no meaning (C90). *)
From Verif Require Import Base KeymapModel.

Definition emacs_idle (k : key) : Prop :=
  match k with
  | KNull | KEsc | KOther _ => True
  | KCtrl c => ~ In c (map ch ["a"; "b"; "c"; "d"; "e"; "f"; "h"; "k"; "l"; "n"; "p"; "r"; "s"; "u"; "w"; "x"]%string)
  | KAlt c => c <> c_del /\ ~ In c (map ch ["<"; ">"; "f"; "b"; "r"; "."]%string)
  | _ => False
  end.
(** In the normal and the insert mode. *)
Definition vi_idle (k : key) : Prop :=
  match k with
  | KNull | KOther _ | KAlt _ => True
  | KCtrl c => ~ In c (map ch ["c"; "d"; "f"; "h"; "l"; "r"; "s"; "["]%string)
  | _ => False
  end.
