(** Model of src/buffer.rs. *)
From Verif Require Import Base Utf8.

(** src/buffer.rs:8-13 [enum Action] *)
Inductive action :=
| AInsert (start : nat) (txt : text)
| ARemove (start : nat) (txt : text)
| AStart
| AEnd.

(** src/buffer.rs:41-45 [struct Buffer].  The two action vectors are stored
    with their last element (the next one to be popped) at the head. *)
Record buffer := mkBuf {
  data : text;
  actions : list action;
  undone : list action
}.

Definition set_data (b : buffer) (d : text) : buffer := mkBuf d (actions b) (undone b).

(** src/buffer.rs:47-51 [PartialEq]: only the text is compared. *)
Definition buf_eqb (a b : buffer) : bool := text_eqb (data a) (data b).

(** src/buffer.rs:60-70, 81-89 [From<String>], [From<&str>], [FromIterator] *)
Definition buf_of (t : text) : buffer := mkBuf t [] [].

(** src/buffer.rs:54-58, 72-79 [From<Buffer> for String], [Display] *)
Definition buf_string (b : buffer) : text := data b.

(** src/buffer.rs:98-104 [new] *)
Definition buf_new : buffer := mkBuf [] [] [].

(** src/buffer.rs:106-109 [clear_actions] *)
Definition clear_actions (b : buffer) : buffer := mkBuf (data b) [] [].

(** src/buffer.rs:111-113 [start_undo_group] *)
Definition start_undo_group (b : buffer) : buffer :=
  mkBuf (data b) (AStart :: actions b) (undone b).

(** src/buffer.rs:115-117 [end_undo_group] *)
Definition end_undo_group (b : buffer) : buffer :=
  mkBuf (data b) (AEnd :: actions b) (undone b).

(** [Vec::insert] *)
Definition vec_insert (i : nat) (c : char) (d : text) : res text :=
  if i <=? length d then Val (firstn i d ++ c :: skipn i d) else Pan PVecInsert.

(** src/buffer.rs:310-314 [insert_raw]: the loop over [text.iter().enumerate()] *)
Fixpoint insert_raw_from (start i : nat) (txt : text) (d : text) : res text :=
  match txt with
  | [] => Val d
  | c :: txt' => rbind (vec_insert (start + i) c d) (insert_raw_from start (S i) txt')
  end.
Definition insert_raw (start : nat) (txt : text) (d : text) : res text :=
  insert_raw_from start 0 txt d.

(** src/buffer.rs:306-308 [remove_raw]: [drain(start..end)]; returns the
    removed characters and the remaining data. *)
Definition remove_raw (s e : nat) (d : text) : res (text * text) :=
  if (s <=? e) && (e <=? length d)
  then Val (firstn (e - s) (skipn s d), firstn s d ++ skipn e d)
  else Pan PDrain.

(** src/buffer.rs:16-24 [Action::do_on] (on the data) *)
Definition act_do (a : action) (d : text) : res text :=
  match a with
  | AInsert s t => insert_raw s t d
  | ARemove s t => rbind (remove_raw s (s + length t) d) (fun r => Val (snd r))
  | AStart | AEnd => Val d
  end.

(** src/buffer.rs:26-34 [Action::undo] (on the data) *)
Definition act_undo (a : action) (d : text) : res text :=
  match a with
  | AInsert s t => rbind (remove_raw s (s + length t) d) (fun r => Val (snd r))
  | ARemove s t => insert_raw s t d
  | AStart | AEnd => Val d
  end.

(** src/buffer.rs:119-144 the while loop of [undo].  [nest] is [group_nest]
    (it can become negative), [cnt] is [group_count]. *)
Fixpoint undo_loop (acts und : list action) (d : text) (nest : Z) (cnt : nat) : res buffer :=
  match acts with
  | [] => Val (mkBuf d [] und)
  | a :: acts' =>
    rbind (act_undo a d) (fun d' =>
      let und' := a :: und in
      let '(nest', cnt') :=
        match a with
        | AEnd => ((nest + 1)%Z, 0)
        | AStart => ((nest - 1)%Z, cnt)
        | _ => (nest, S cnt)
        end in
      if Z.eqb nest' 0 && (0 <? cnt')
      then Val (mkBuf d' acts' und')
      else undo_loop acts' und' d' nest' cnt')
  end.

Definition nonempty {A} (l : list A) : bool := match l with [] => false | _ => true end.

(** src/buffer.rs:119-144 [undo] *)
Definition buf_undo (b : buffer) : res (bool * buffer) :=
  rbind (undo_loop (actions b) (undone b) (data b) 0 0)
        (fun b' => Val (nonempty (actions b), b')).

(** src/buffer.rs:146-171 the while loop of [redo] *)
Fixpoint redo_loop (und acts : list action) (d : text) (nest : Z) (cnt : nat) : res buffer :=
  match und with
  | [] => Val (mkBuf d acts [])
  | a :: und' =>
    rbind (act_do a d) (fun d' =>
      let acts' := a :: acts in
      let '(nest', cnt') :=
        match a with
        | AStart => ((nest + 1)%Z, 0)
        | AEnd => ((nest - 1)%Z, cnt)
        | _ => (nest, S cnt)
        end in
      if Z.eqb nest' 0 && (0 <? cnt')
      then Val (mkBuf d' acts' und')
      else redo_loop und' acts' d' nest' cnt')
  end.

(** src/buffer.rs:146-171 [redo] *)
Definition buf_redo (b : buffer) : res (bool * buffer) :=
  rbind (redo_loop (undone b) (actions b) (data b) 0 0)
        (fun b' => Val (nonempty (undone b), b')).

(** src/buffer.rs:173-180 [revert]: [while self.undo() {}].  Each [undo] that
    answers true removes at least one action, so [length actions + 1] rounds
    are enough; running out of rounds would be [None] (proved impossible). *)
Fixpoint revert_loop (n : nat) (b : buffer) : option (res buffer) :=
  match n with
  | O => None
  | S n' =>
    match buf_undo b with
    | Pan p => Some (Pan p)
    | Val (true, b') => revert_loop n' b'
    | Val (false, b') => Some (Val b')
    end
  end.
Definition buf_revert_opt (b : buffer) : option (res (bool * buffer)) :=
  match actions b with
  | [] => Some (Val (false, b))
  | _ =>
    match revert_loop (S (length (actions b))) b with
    | None => None
    | Some (Pan p) => Some (Pan p)
    | Some (Val b') => Some (Val (true, b'))
    end
  end.
(** The unreachable [None] is mapped to a panic that no source line produces
    (proved impossible in BufferProofs.v). *)
Definition buf_revert (b : buffer) : res (bool * buffer) :=
  match buf_revert_opt b with Some r => r | None => Pan PUnreach end.

(** src/buffer.rs:182-185 [push_action] *)
Definition push_action (a : action) (b : buffer) : buffer :=
  mkBuf (data b) (a :: actions b) [].

(** [slice.split(|c| c == sep)] : always at least one piece *)
Fixpoint split_on (sep : char) (t : text) : list text :=
  match t with
  | [] => [[]]
  | c :: t' =>
    if N.eqb c sep then [] :: split_on sep t'
    else match split_on sep t' with
         | [] => [[c]]
         | p :: ps => (c :: p) :: ps
         end
  end.

Fixpoint last_opt {A} (l : list A) : option A :=
  match l with
  | [] => None
  | [x] => Some x
  | _ :: l' => last_opt l'
  end.

(** src/buffer.rs:187-192 [last_arg] *)
Definition last_arg (b : buffer) : option text :=
  last_opt (filter nonempty (split_on c_sp (data b))).

(** src/buffer.rs:194-196 [num_chars] *)
Definition num_chars (b : buffer) : nat := length (data b).

(** src/buffer.rs:198-201 [num_bytes] *)
Definition num_bytes (b : buffer) : nat := blen (data b).

(** src/buffer.rs:203-209 [char_before] *)
Definition char_before (b : buffer) (cursor : nat) : option char :=
  match cursor with O => None | S k => nth_error (data b) k end.

(** src/buffer.rs:211-213 [char_after] *)
Definition char_after (b : buffer) (cursor : nat) : option char :=
  nth_error (data b) cursor.

(** src/buffer.rs:216-221 [remove] *)
Definition buf_remove (b : buffer) (s e : nat) : res (nat * buffer) :=
  rbind (remove_raw s e (data b)) (fun '(removed, rest) =>
    Val (length removed, push_action (ARemove s removed) (set_data b rest))).

(** src/buffer.rs:223-230 [insert] *)
Definition buf_insert (b : buffer) (s : nat) (t : text) : res buffer :=
  rbind (act_do (AInsert s t) (data b)) (fun d =>
    Val (push_action (AInsert s t) (set_data b d))).

(** src/buffer.rs:233-236 [insert_from_buffer] *)
Definition insert_from_buffer (b other : buffer) : res buffer :=
  let start := length (data b) in
  rbind (slice (data other) start (length (data other))) (fun t =>
    buf_insert b start t).

(** src/buffer.rs:238-242 [copy_buffer] *)
Definition copy_buffer (b other : buffer) : res buffer :=
  rbind (buf_remove b 0 (length (data b))) (fun '(_, b1) =>
    buf_insert b1 0 (data other)).

(** src/buffer.rs:244-250 [range], [range_chars] *)
Definition buf_range (b : buffer) (s e : nat) : res text := slice (data b) s e.

(** src/buffer.rs:256-261 [range_width] *)
Definition range_width (U : unicode) (b : buffer) (s e : nat) : res (list nat) :=
  rbind (buf_range b s e) (fun t => Val (map (u_width U) (split_on c_nl t))).

(** src/buffer.rs:252-254 [width] *)
Definition buf_width (U : unicode) (b : buffer) : res (list nat) :=
  range_width U b 0 (num_chars b).

(** src/buffer.rs:263-268 [lines] *)
Definition buf_lines (b : buffer) : list text := split_on c_nl (data b).

(** src/buffer.rs:274-277 [truncate] *)
Definition buf_truncate (b : buffer) (num : nat) : res buffer :=
  rbind (buf_remove b num (length (data b))) (fun '(_, b') => Val b').

(** src/buffer.rs:287-291 [as_bytes]; src/buffer.rs:279-285 [print] writes the
    same bytes *)
Definition as_bytes (b : buffer) : list byte := enc (data b).

(** src/buffer.rs:296-304 [print_rest]: the bytes written and the length
    returned *)
Definition print_rest (b : buffer) (after : nat) : list byte * nat :=
  (enc (skipn after (data b)), blen (skipn after (data b))).

(** [zip(...).take_while(eq).count()] *)
Fixpoint match_count (a b : text) : nat :=
  match a, b with
  | x :: a', y :: b' => if N.eqb x y then S (match_count a' b') else 0
  | _, _ => 0
  end.

(** src/buffer.rs:318-332 [starts_with] *)
Definition starts_with (b other : buffer) : bool :=
  let other_len := length (data other) in
  let self_len := length (data b) in
  if nonempty (data other) && negb (self_len =? other_len)
  then match_count (data b) (data other) =? other_len
  else false.

(** [slice.windows(n)] for [n > 0] *)
Fixpoint windows (n : nat) (t : text) : list text :=
  match t with
  | [] => []
  | _ :: t' => if n <=? length t then firstn n t :: windows n t' else []
  end.

(** src/buffer.rs:336-344 [contains] *)
Definition contains (b pattern : buffer) : bool :=
  if nonempty (data pattern)
  then existsb (fun w => text_eqb w (data pattern)) (windows (length (data pattern)) (data b))
  else false.

(** src/buffer.rs:347-349 [is_empty] *)
Definition buf_is_empty (b : buffer) : bool := negb (nonempty (data b)).
