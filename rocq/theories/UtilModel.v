(** Model of src/util.rs, of [CursorPosition] (src/editor.rs) and of
    [get_buffer_words] (src/context.rs). *)
From Verif Require Import Base Utf8 BufferModel.

(** [slice.starts_with(prefix)] (also [str::starts_with] with a str pattern) *)
Fixpoint prefixb (p t : text) : bool :=
  match p, t with
  | [], _ => true
  | x :: p', y :: t' => N.eqb x y && prefixb p' t'
  | _ :: _, [] => false
  end.

(** [among.iter().min_by_key(|x| x.len())]: the first of minimal length *)
Fixpoint shortest (best : text) (l : list text) : text :=
  match l with
  | [] => best
  | s :: l' => shortest (if length s <? length best then s else best) l'
  end.

(** src/util.rs:24-41 the [while end > 0] loop; [end_] counts down *)
Fixpoint lcp_loop (end_ : nat) (word : text) (among : list text) : option text :=
  match end_ with
  | O => None
  | S e =>
    let prefix := firstn end_ word in
    if forallb (prefixb prefix) among then Some prefix else lcp_loop e word among
  end.

(** src/util.rs:9-44 [find_longest_common_prefix] *)
Definition find_longest_common_prefix (among : list text) : option text :=
  match among with
  | [] => None
  | [s] => Some s
  | s0 :: rest =>
    if existsb (fun s => negb (nonempty s)) among then None
    else let w := shortest s0 rest in lcp_loop (length w) w among
  end.

(** src/util.rs:46-51 [enum AnsiState] *)
Inductive ansi := ANorm | AEsc | ACsi | AOsc.

(** [char::is_ascii_alphabetic] *)
Definition is_ascii_alphabetic (c : char) : bool :=
  (((65 <=? c) && (c <=? 90)) || ((97 <=? c) && (c <=? 122)))%N.

(** src/util.rs:57-73 the loop of [remove_codes] *)
Fixpoint strip_loop (s : ansi) (t : text) : text :=
  match t with
  | [] => []
  | c :: t' =>
    match s with
    | ANorm => if N.eqb c c_esc then strip_loop AEsc t' else c :: strip_loop ANorm t'
    | AEsc => if N.eqb c (ch "[") then strip_loop ACsi t'
              else if N.eqb c (ch "]") then strip_loop AOsc t'
              else strip_loop ANorm t'
    | ACsi => if is_ascii_alphabetic c then strip_loop ANorm t' else strip_loop ACsi t'
    | AOsc => if N.eqb c c_bel then strip_loop ANorm t' else strip_loop AOsc t'
    end
  end.

(** src/util.rs:53-79 [remove_codes] *)
Definition remove_codes (t : text) : text :=
  if existsb (N.eqb c_esc) t then strip_loop ANorm t else t.

(** src/util.rs:82-89 [handle_prompt]: the part after the last newline *)
Fixpoint handle_prompt (t : text) : text :=
  match t with
  | [] => []
  | c :: t' =>
    if existsb (N.eqb c_nl) t' then handle_prompt t'
    else if N.eqb c c_nl then t' else t
  end.

(** src/util.rs:4-7 [last_prompt_line_width] *)
Definition last_prompt_line_width (U : unicode) (t : text) : nat :=
  u_width U (remove_codes (handle_prompt t)).

(** src/util.rs:91-97 [terminal_width]; [sz] is the column count reported by
    termion, [None] if the call fails. *)
Definition terminal_width (sz : option nat) : option nat :=
  match sz with
  | None => None
  | Some O => Some 80
  | Some w => Some w
  end.

(** src/editor.rs:122-137 [enum CursorPosition] *)
Inductive cpos :=
| InWord (i : nat)
| OnWordLeftEdge (i : nat)
| OnWordRightEdge (i : nat)
| InSpace (l r : option nat).

(** src/editor.rs:153-168 the loop of [CursorPosition::get]; [i] is the
    enumeration index (equal to [len] before the increment). *)
Fixpoint cpos_loop (cursor i : nat) (words : list (nat * nat)) : res cpos :=
  match words with
  | [] => rbind (sub_chk i 1) (fun k => Val (InSpace (Some k) None))
  | (s, e) :: words' =>
    if s =? cursor then Val (OnWordLeftEdge i)
    else if e =? cursor then Val (OnWordRightEdge i)
    else if (s <? cursor) && (cursor <? e) then Val (InWord i)
    else if cursor <? s then rbind (sub_chk i 1) (fun k => Val (InSpace (Some k) (Some i)))
    else cpos_loop cursor (S i) words'
  end.

(** src/editor.rs:141-169 [CursorPosition::get] *)
Definition cpos_get (cursor : nat) (words : list (nat * nat)) : res cpos :=
  match words with
  | [] => Val (InSpace None None)
  | (lft, _) :: _ =>
    if cursor =? lft then Val (OnWordLeftEdge 0)
    else if cursor <? lft then Val (InSpace None (Some 0))
    else cpos_loop cursor 0 words
  end.

(** src/context.rs:24-40 the loop of [get_buffer_words]: [i] index, [ws]
    [word_start], [bs] [just_had_backslash]; the words found are produced in
    order, and the final [if let] is the empty case. *)
Fixpoint words_loop (i : nat) (ws : option nat) (bs : bool) (t : text) : list (nat * nat) :=
  match t with
  | [] => match ws with Some start => [(start, i)] | None => [] end
  | c :: t' =>
    if N.eqb c c_bs then words_loop (S i) ws true t'
    else match ws with
         | Some start =>
           if N.eqb c c_sp && negb bs
           then (start, i) :: words_loop (S i) None false t'
           else words_loop (S i) ws false t'
         | None =>
           if negb (N.eqb c c_sp) then words_loop (S i) (Some i) false t'
           else words_loop (S i) None false t'
         end
  end.

(** src/context.rs:18-47 [get_buffer_words] *)
Definition get_buffer_words (t : text) : list (nat * nat) := words_loop 0 None false t.
