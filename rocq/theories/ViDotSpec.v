(** Vocabulary for what [.] does: the changes of Vi normal mode, and sequences of changes, motions,
    [u] and [.]. *)
From Verif Require Import Base BufferModel EditorState EditorModel KeymapModel ViModel EditorSpec ViSpec.

(** A motion [mk] that can follow [d] or [c], and the positions [i..j) it designates with a count of
    [n].  [0] is left out: see C72_zero_refuted. *)
Inductive object (U : unicode) (t : text) (c : nat) (n : N) (mk : list key) (i j : nat) : Prop :=
| ob_span : span t c n mk i j -> mk <> [kch "0"] ->
    (forall k x, mk = [k; KChar x] -> x <> c_tab /\ x <> c_nl) -> object U t c n mk i j
| ob_word : word_span U t c n mk i j ->
    (forall x, u_white U x = true -> is_vi_keyword U x = false) -> object U t c n mk i j.

(** The count that is remembered for the motion [mk].  It should be [n]; after the character searches
    [f], [t], [F] and [T] it is lost (C72_find_refuted). *)
Definition remembered (mk : list key) (n : N) : N := match mk with [_; _] => 1%N | _ => n end.

(** The changes.  [change U t c n K t' c' m]: the keys [K] (counts left out) given on the line [t] with
    the cursor at [c] and a count of [n] lead to the line [t'] with the cursor at [c']; [m] is the
    count that is remembered. *)
Inductive change (U : unicode) (t : text) (c : nat) (n : N) : list key -> text -> nat -> N -> Prop :=
| cg_x : forall k t', In k [kch "x"; KDelete] -> t' = firstn c t ++ skipn (c + N.to_nat n) t ->
    change U t c n [k] t' (Nat.min c (length t' - 1)) n
| cg_D : change U t c n [kch "D"] (firstn c t) (c - 1) 1
| cg_r : forall x, x <> c_tab -> x <> c_nl -> (n <= N.of_nat (length t - c))%N ->
    change U t c n [kch "r"; KChar x]
      (firstn c t ++ repeat x (N.to_nat n) ++ skipn (c + N.to_nat n) t) (c + N.to_nat n - 1) n
| cg_d : forall mk i j t', object U t c n mk i j -> t' = firstn i t ++ skipn j t ->
    change U t c n (kch "d" :: mk) t' (Nat.min i (length t' - 1)) (remembered mk n)
| cg_c : forall mk i j tk a r, object U t c n mk i j -> Forall typed tk ->
    type_on tk (firstn i t, skipn j t) = (a, r) ->
    change U t c n (kch "c" :: mk ++ tk ++ [KEsc]) (a ++ r) (length a - 1) (remembered mk n)
| cg_insert : forall k z times tk a r, insert_at t c n k z times -> k <> kch "C" -> Forall typed tk ->
    type_times times tk z = (a, r) ->
    change U t c n (k :: tk ++ [KEsc]) (a ++ r) (length a - 1) n.

(** [given ks K n]: [ks] is the change [K] with counts, [n] altogether. *)
Inductive given : list key -> list key -> N -> Prop :=
| gv_front : forall ks n K, count ks n -> given (ks ++ K) K n
| gv_both : forall ks1 n1 o ks2 n2 K, In o [kch "d"; kch "c"] -> count ks1 n1 -> count ks2 n2 ->
    given (ks1 ++ o :: ks2 ++ K) (o :: K) (N.min (n1 * n2) 4294967295).

(** The motions. *)
Inductive goes (U : unicode) (t : text) (c : nat) : list key -> nat -> Prop :=
| go_left : forall ks n k, count ks n -> In k [kch "h"; KBackspace] -> goes U t c (ks ++ [k]) (c - N.to_nat n)
| go_right : forall ks n k, count ks n -> In k [kch "l"; kch " "] ->
    goes U t c (ks ++ [k]) (Nat.min (c + N.to_nat n) (length t - 1))
| go_zero : goes U t c [kch "0"] 0
| go_start : forall ks n, count ks n -> goes U t c (ks ++ [kch "^"]) 0
| go_end : forall ks n, count ks n -> goes U t c (ks ++ [kch "$"]) (length t - 1)
| go_word : forall ks n m big p, count ks n -> (forall x, u_white U x = true -> is_vi_keyword U x = false) ->
    hops (word_hop U m big t) (word_stop m t) (N.to_nat n) c p -> goes U t c (ks ++ word_keys m big) p
| go_find : forall ks n m k x p, count ks n -> search_key m = Some k -> x <> c_tab -> x <> c_nl ->
    search_hit m t c x n p -> goes U t c (ks ++ [k; KChar x]) (search_stop m p)
| go_miss : forall ks n m k x, count ks n -> search_key m = Some k -> x <> c_tab -> x <> c_nl ->
    search_miss m t c x n -> goes U t c (ks ++ [k; KChar x]) c.

(** The last change and the count remembered for it; [None] if nothing is known about it. *)
Definition memory : Type := option (list key * N).

(** One change of the line: given anew, or repeated with [.], which takes the remembered count or
    its own. *)
Inductive act (U : unicode) (t : text) (c : nat) : memory -> list key -> text -> nat -> memory -> Prop :=
| ac_change : forall r ks K n t' c' m, given ks K n -> change U t c n K t' c' m ->
    act U t c r ks t' c' (Some (K, m))
| ac_again : forall K n t' c' m, change U t c n K t' c' m ->
    act U t c (Some (K, n)) [kch "."] t' c' (Some (K, m))
| ac_again_counted : forall ks K n0 n t' c' m, count ks n -> ks <> [] -> change U t c n K t' c' m ->
    act U t c (Some (K, n0)) (ks ++ [kch "."]) t' c' (Some (K, m)).

(** Any number of changes, each possibly undone right away, and motions in between. *)
Inductive story (U : unicode) : text -> nat -> memory -> list key -> text -> nat -> Prop :=
| so_end : forall t c r, story U t c r [] t c
| so_move : forall t c r ks c1 rest t' c', goes U t c ks c1 -> story U t c1 r rest t' c' ->
    story U t c r (ks ++ rest) t' c'
| so_act : forall t c r ks t1 c1 r1 rest t' c', act U t c r ks t1 c1 r1 -> story U t1 c1 r1 rest t' c' ->
    story U t c r (ks ++ rest) t' c'
| so_undo : forall t c r ks t1 c1 r1 rest t' c', act U t c r ks t1 c1 r1 -> t1 <> t ->
    story U t (length t - 1) r1 rest t' c' -> story U t c r (ks ++ kch "u" :: rest) t' c'.
