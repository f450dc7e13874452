(** Vocabulary for the Vi properties. *)
From Verif Require Import Base BufferModel EditorState EditorModel KeymapModel ViModel EditorSpec.
Local Open Scope monad_scope.

(** A motion that can follow [d] or [c]: a single character, a character search
    with its target, or [ge]/[gE]. *)
Inductive motion : list key -> Prop :=
| mo_one : forall c, In c (str "hlwWbBeE ^$") -> motion [KChar c]
| mo_find : forall c x, In c (str "ftFT") -> x <> c_tab -> x <> c_nl -> motion [KChar c; KChar x]
| mo_ge : forall c, In c (str "eE") -> motion [kch "g"; KChar c].

(** Text typed in insert mode, with corrections. *)
Definition typed (k : key) : Prop :=
  match k with
  | KChar c => c <> c_tab /\ c <> c_nl
  | KBackspace | KDelete => True
  | _ => False
  end.

Definition digit (c : char) : Prop := (48 <= c <= 57)%N.

(** Complete Vi commands given in normal mode.  [C] and [cc] are left out. *)
Inductive command : list key -> Prop :=
| co_motion : forall m, motion m -> command m
| co_key : forall c, In c (str "jkxD~u") -> command [KChar c]
| co_delete_key : command [KDelete]
| co_digit : forall c, digit c -> command [KChar c]
| co_replace : forall x, x <> c_tab -> x <> c_nl -> command [kch "r"; KChar x]
| co_delete : forall m, motion m -> command (kch "d" :: m)
| co_delete_line : command [kch "d"; kch "d"]
| co_insert : forall c t, In c (str "iaAIs") -> Forall typed t -> command (KChar c :: t ++ [KEsc])
| co_change : forall m t, motion m -> Forall typed t -> command (kch "c" :: m ++ t ++ [KEsc])
| co_repeat : command [kch "."].

(** A state some Vi session can be in while the line is being edited. *)
Definition vi_session (v : vi) (s : ed) : Prop :=
  exists E p f ib h w cb ttys s0 l, editor_new E p f ib h w cb ttys = ORet tt s0 /\
    (vi_init E ;;; run_keys vi_core l) (vi_new, s0) = ORet false (v, s).
(** The editor is in normal mode, waiting for a command, on the line [t] with
    the cursor at [c]; no incremental search is going on. *)
Definition ready (v : vi) (s : ed) (t : text) (c : nat) : Prop :=
  vi_session v s /\ vmode_of v = MNormal /\ v_count v = 0%N /\ is_search s = false /\ line_is s t c.

(** A count typed before a command, and its value. *)
Definition number (ds : list char) : N := fold_left (fun n c => n * 10 + (c - 48))%N ds 0%N.
Inductive count : list key -> N -> Prop :=
| count_none : count [] 1
| count_digits : forall d ds, digit d -> d <> 48%N -> Forall digit ds ->
    count (map KChar (d :: ds)) (N.min (number (d :: ds)) 4294967295).

(** * Character searches *)

(** [p] is the position of the [n]-th [x] to the right (left) of position [c]. *)
Definition occ (x : char) (t : text) : N := N.of_nat (count_occ N.eq_dec t x).
Definition nth_right (t : text) (c : nat) (x : char) (n : N) (p : nat) : Prop :=
  exists a m r, t = a ++ m ++ x :: r /\ length a = S c /\ (occ x m + 1 = n)%N /\ p = S c + length m.
Definition nth_left (t : text) (c : nat) (x : char) (n : N) (p : nat) : Prop :=
  exists a m r, t = a ++ x :: m ++ r /\ length a + S (length m) = c /\ (occ x m + 1 = n)%N /\ p = length a.

(** The four searches, with the keys that start them. *)
Definition search_key (m : cmove) : option key :=
  match m with
  | RightAt => Some (kch "f") | RightUntil => Some (kch "t")
  | LeftAt => Some (kch "F") | LeftUntil => Some (kch "T")
  | _ => None
  end.
Definition reverse_search (m : cmove) : cmove :=
  match m with
  | RightAt => LeftAt | LeftAt => RightAt | RightUntil => LeftUntil | LeftUntil => RightUntil
  | _ => m
  end.
(** The character searched for is at [p]; there is none. *)
Definition search_hit (m : cmove) (t : text) (c : nat) (x : char) (n : N) (p : nat) : Prop :=
  match m with
  | RightAt | RightUntil => nth_right t c x n p
  | LeftAt | LeftUntil => nth_left t c x n p
  | _ => False
  end.
Definition search_miss (m : cmove) (t : text) (c : nat) (x : char) (n : N) : Prop :=
  match m with
  | RightAt | RightUntil => (occ x (skipn (S c) t) < n)%N
  | LeftAt | LeftUntil => (occ x (firstn c t) < n)%N
  | _ => False
  end.
(** Where the cursor goes when the character is at [p]. *)
Definition search_stop (m : cmove) (p : nat) : nat :=
  match m with RightUntil => p - 1 | LeftUntil => p + 1 | _ => p end.

(** * Word motions *)

(** Blanks, keyword characters, other characters; [big] words only distinguish
    blanks from the rest. *)
Inductive cclass := Blank | Key | Punct.
Definition class_of (U : unicode) (big : bool) (x : char) : cclass :=
  if u_white U x then Blank
  else if big then Key
  else if u_alnum U x then Key
  else if N.eqb x (ch "_") then Key else Punct.

Definition word_start (U : unicode) (big : bool) (t : text) (p : nat) : Prop :=
  exists x, nth_error t p = Some x /\ class_of U big x <> Blank /\
    (p = 0 \/ forall y, nth_error t (p - 1) = Some y -> class_of U big y <> class_of U big x).
Definition word_end (U : unicode) (big : bool) (t : text) (p : nat) : Prop :=
  exists x, nth_error t p = Some x /\ class_of U big x <> Blank /\
    forall y, nth_error t (S p) = Some y -> class_of U big y <> class_of U big x.

(** The nearest position with the property, on either side. *)
Definition next (P : nat -> Prop) (c p : nat) : Prop :=
  c < p /\ P p /\ forall q, c < q -> q < p -> ~ P q.
Definition prev (P : nat -> Prop) (c p : nat) : Prop :=
  p < c /\ P p /\ forall q, p < q -> q < c -> ~ P q.

(** [n] hops of [R], stopping at [stop] when there is nowhere to hop to. *)
Inductive hops (R : nat -> nat -> Prop) (stop : nat) : nat -> nat -> nat -> Prop :=
| hops_0 : forall c, hops R stop 0 c c
| hops_go : forall n c c1 c2, R c c1 -> hops R stop n c1 c2 -> hops R stop (S n) c c2
| hops_stop : forall n c, (forall p, ~ R c p) -> hops R stop (S n) c stop.

(** The word motions: their keys, the hop, and where they stop. *)
Inductive wmotion := WNext | WEnd | WBack | WBackEnd.
Definition word_keys (m : wmotion) (big : bool) : list key :=
  match m, big with
  | WNext, false => [kch "w"] | WNext, true => [kch "W"]
  | WEnd, false => [kch "e"] | WEnd, true => [kch "E"]
  | WBack, false => [kch "b"] | WBack, true => [kch "B"]
  | WBackEnd, false => [kch "g"; kch "e"] | WBackEnd, true => [kch "g"; kch "E"]
  end.
Definition word_hop (U : unicode) (m : wmotion) (big : bool) (t : text) : nat -> nat -> Prop :=
  match m with
  | WNext => next (word_start U big t)
  | WEnd => next (word_end U big t)
  | WBack => prev (word_start U big t)
  | WBackEnd => prev (word_end U big t)
  end.
Definition word_stop (m : wmotion) (t : text) : nat :=
  match m with WNext | WEnd => length t - 1 | WBack | WBackEnd => 0 end.

(** * Deletions *)

(** The positions [i..j) of [t] that [d] followed by a motion designates, with
    the cursor at [c] and a count of [n]. *)
Inductive span (t : text) (c : nat) (n : N) : list key -> nat -> nat -> Prop :=
| span_left : forall k, In k [kch "h"; KBackspace] -> span t c n [k] (c - N.to_nat n) c
| span_right : forall k, In k [kch "l"; kch " "] -> span t c n [k] c (Nat.min (c + N.to_nat n) (length t))
| span_start : forall k, In k [kch "0"; kch "^"] -> span t c n [k] 0 c
| span_end : span t c n [kch "$"] c (length t)
| span_f : forall x p, nth_right t c x n p -> span t c n [kch "f"; KChar x] c (p + 1)
| span_t : forall x p, nth_right t c x n p -> span t c n [kch "t"; KChar x] c p
| span_F : forall x p, nth_left t c x n p -> span t c n [kch "F"; KChar x] p c
| span_T : forall x p, nth_left t c x n p -> span t c n [kch "T"; KChar x] (p + 1) c.
(** The same for word motions. *)
Inductive word_span (U : unicode) (t : text) (c : nat) (n : N) : list key -> nat -> nat -> Prop :=
| ws_w : forall big p, hops (next (word_start U big t)) (length t) (N.to_nat n) c p ->
    word_span U t c n (word_keys WNext big) c p
| ws_b : forall big p, hops (prev (word_start U big t)) 0 (N.to_nat n) c p ->
    word_span U t c n (word_keys WBack big) p c.

(** * Insertions *)

(** Typing one key, and several, between the text before and the text after. *)
Definition type1 (z : text * text) (k : key) : text * text :=
  match k with
  | KChar x => (fst z ++ [x], snd z)
  | KBackspace => (removelast (fst z), snd z)
  | KDelete => (fst z, tl (snd z))
  | _ => z
  end.
Definition type_on (ks : list key) (z : text * text) : text * text := fold_left type1 ks z.
Fixpoint type_times (n : nat) (ks : list key) (z : text * text) : text * text :=
  match n with O => z | S m => type_times m ks (type_on ks z) end.

(** The commands entering insert mode, with the line [t], the cursor at [c] and
    a count of [n]: the texts before and after the place where typing goes, and
    how many times the typed keys count. *)
Inductive insert_at (t : text) (c : nat) (n : N) : key -> text * text -> nat -> Prop :=
| ia_i : insert_at t c n (kch "i") (firstn c t, skipn c t) (N.to_nat n)
| ia_a : insert_at t c n (kch "a") (firstn (c + 1) t, skipn (c + 1) t) (N.to_nat n)
| ia_I : insert_at t c n (kch "I") ([], t) (N.to_nat n)
| ia_A : insert_at t c n (kch "A") (t, []) (N.to_nat n)
| ia_s : insert_at t c n (kch "s") (firstn c t, skipn (c + N.to_nat n) t) 1
| ia_C : insert_at t c n (kch "C") (firstn c t, []) 1.

(** [c] with what follows it, and the positions [i..j) it changes. *)
Inductive change_keys (U : unicode) (t : text) (c : nat) : list key -> nat -> nat -> Prop :=
| ck_line : forall ks1 n1 ks2 n2, count ks1 n1 -> count ks2 n2 ->
    change_keys U t c (ks1 ++ kch "c" :: ks2 ++ [kch "c"]) 0 (length t)
| ck_span : forall ks1 n1 ks2 n2 mk i j, count ks1 n1 -> count ks2 n2 ->
    (mk = [kch "0"] -> ks1 = [] /\ ks2 = []) -> (forall k x, mk = [k; KChar x] -> x <> c_tab /\ x <> c_nl) ->
    span t c (N.min (n1 * n2) 4294967295) mk i j ->
    change_keys U t c (ks1 ++ kch "c" :: ks2 ++ mk) i j
| ck_word : forall ks1 n1 ks2 n2 mk i j, count ks1 n1 -> count ks2 n2 ->
    (forall x, u_white U x = true -> is_vi_keyword U x = false) ->
    word_span U t c (N.min (n1 * n2) 4294967295) mk i j ->
    change_keys U t c (ks1 ++ kch "c" :: ks2 ++ mk) i j.

(** The deletions: [x], [D], [dd], [d] with a motion. *)
Inductive deletion (U : unicode) (t : text) (c : nat) : list key -> Prop :=
| de_x : forall ks n k, count ks n -> In k [kch "x"; KDelete] -> deletion U t c (ks ++ [k])
| de_D : forall ks n, count ks n -> deletion U t c (ks ++ [kch "D"])
| de_line : forall ks1 n1 ks2 n2, count ks1 n1 -> count ks2 n2 ->
    deletion U t c (ks1 ++ kch "d" :: ks2 ++ [kch "d"])
| de_span : forall ks1 n1 ks2 n2 mk i j, count ks1 n1 -> count ks2 n2 ->
    (mk = [kch "0"] -> ks1 = [] /\ ks2 = []) -> (forall k x, mk = [k; KChar x] -> x <> c_tab /\ x <> c_nl) ->
    span t c (N.min (n1 * n2) 4294967295) mk i j ->
    deletion U t c (ks1 ++ kch "d" :: ks2 ++ mk)
| de_word : forall ks1 n1 ks2 n2 mk i j, count ks1 n1 -> count ks2 n2 ->
    (forall x, u_white U x = true -> is_vi_keyword U x = false) ->
    word_span U t c (N.min (n1 * n2) 4294967295) mk i j ->
    deletion U t c (ks1 ++ kch "d" :: ks2 ++ mk).
