(** Model of src/history.rs over a model of the file system. *)
From Verif Require Import Base Utf8 BufferModel UtilModel.

(** * File system

    A path is the text given by the user ([Path::to_str] always succeeds:
    non-UTF-8 paths are not modelled).  A file has its bytes and says whether
    opening it for reading / writing succeeds; [fs_can_create] says whether
    [File::create] of a missing file succeeds.  Once a file is open, reads and
    writes succeed completely (crashes are modelled separately, see
    [rewrite_states]). *)
Notation path := (list N) (only parsing).

Record file := mkFile {
  f_bytes : list byte;
  f_readable : bool;
  f_writable : bool
}.

Record fs := mkFs {
  fs_files : path -> option file;
  fs_can_create : path -> bool
}.

Definition fs_put (w : fs) (p : path) (f : file) : fs :=
  mkFs (fun q => if text_eqb q p then Some f else fs_files w q) (fs_can_create w).

(** [Path::exists] *)
Definition fs_exists (w : fs) (p : path) : bool :=
  match fs_files w p with Some _ => true | None => false end.

(** [File::open] followed by reading everything *)
Definition fs_open (w : fs) (p : path) : option (list byte) :=
  match fs_files w p with
  | Some f => if f_readable f then Some (f_bytes f) else None
  | None => None
  end.

(** [File::create]: truncate or create *)
Definition fs_create (w : fs) (p : path) : option fs :=
  match fs_files w p with
  | Some f => if f_writable f then Some (fs_put w p (mkFile [] (f_readable f) true)) else None
  | None => if fs_can_create w p then Some (fs_put w p (mkFile [] true true)) else None
  end.

(** Writing at the end of a file opened for writing or appending *)
Definition fs_append (w : fs) (p : path) (bs : list byte) : fs :=
  match fs_files w p with
  | Some f => fs_put w p (mkFile (f_bytes f ++ bs) (f_readable f) (f_writable f))
  | None => w
  end.

(** [OpenOptions::new().append(true).open]: the file must exist *)
Definition fs_can_append (w : fs) (p : path) : bool :=
  match fs_files w p with Some f => f_writable f | None => false end.

(** * Lines of a file: [BufRead::lines]

    [read_until(b'\n')] pieces with the terminating "\n" (and a "\r" before it)
    removed; a final piece without newline counts if it is not empty.  Each
    piece is [None] if it is not valid UTF-8. *)
Fixpoint raw_lines_from (acc : list byte) (bs : list byte) : list (list byte * bool) :=
  match bs with
  | [] => match acc with [] => [] | _ => [(rev acc, false)] end
  | b :: bs' =>
    if N.eqb b 10%N then (rev acc, true) :: raw_lines_from [] bs'
    else raw_lines_from (b :: acc) bs'
  end.
Definition raw_lines (bs : list byte) : list (list byte * bool) := raw_lines_from [] bs.

(** Drop one trailing '\r' of a newline-terminated piece. *)
Definition strip_cr (t : text) : text :=
  match rev t with
  | c :: r => if N.eqb c c_cr then rev r else t
  | [] => t
  end.

Definition line_of (x : list byte * bool) : option text :=
  let '(bs, nl) := x in
  match dec bs with
  | None => None
  | Some t => Some (if nl then strip_cr t else t)
  end.

Definition file_lines (bs : list byte) : list (option text) := map line_of (raw_lines bs).

(** The loops at src/history.rs:121-130 and 163-172: stop at the first error,
    skip comment lines. *)
Fixpoint take_entries (l : list (option text)) : list text :=
  match l with
  | [] => []
  | None :: _ => []
  | Some t :: l' => if prefixb [c_hash] t then take_entries l' else t :: take_entries l'
  end.

(** * The history object *)

(** src/history.rs:19-43 [struct History] *)
Record history := mkHist {
  buffers : list buffer;        (* buffers[0] is the oldest *)
  h_file : option path;         (* file_name *)
  h_maxbuf : nat;               (* max_buffers_size *)
  h_maxfile : nat;              (* max_file_size *)
  h_appdup : bool;              (* append_duplicate_entries *)
  h_inc : bool;                 (* inc_append *)
  h_share : bool;               (* share *)
  h_fsize : nat;                (* file_size *)
  h_loaddup : bool;             (* load_duplicates *)
  h_compact : nat               (* compaction_writes *)
}.

Definition set_buffers (h : history) (b : list buffer) : history :=
  mkHist b (h_file h) (h_maxbuf h) (h_maxfile h) (h_appdup h) (h_inc h) (h_share h)
         (h_fsize h) (h_loaddup h) (h_compact h).
Definition set_fsize (h : history) (n : nat) : history :=
  mkHist (buffers h) (h_file h) (h_maxbuf h) (h_maxfile h) (h_appdup h) (h_inc h) (h_share h)
         n (h_loaddup h) (h_compact h).
Definition set_compact (h : history) (n : nat) : history :=
  mkHist (buffers h) (h_file h) (h_maxbuf h) (h_maxfile h) (h_appdup h) (h_inc h) (h_share h)
         (h_fsize h) (h_loaddup h) n.
Definition set_hfile (h : history) (p : option path) : history :=
  mkHist (buffers h) p (h_maxbuf h) (h_maxfile h) (h_appdup h) (h_inc h) (h_share h)
         (h_fsize h) (h_loaddup h) (h_compact h).

(** src/history.rs:15 [DEFAULT_MAX_SIZE], 53-66 [new] *)
Definition hist_new : history :=
  mkHist [] None 1000 1000 false false false 0 true 0.

(** src/history.rs:219-226 [set_max_buffers_size], [set_max_file_size] *)
Definition set_max_buffers_size (h : history) (n : nat) : history :=
  mkHist (buffers h) (h_file h) n (h_maxfile h) (h_appdup h) (h_inc h) (h_share h)
         (h_fsize h) (h_loaddup h) (h_compact h).
Definition set_max_file_size (h : history) (n : nat) : history :=
  mkHist (buffers h) (h_file h) (h_maxbuf h) n (h_appdup h) (h_inc h) (h_share h)
         (h_fsize h) (h_loaddup h) (h_compact h).

(** src/history.rs:69-71 [clear_history] *)
Definition clear_history (h : history) : history := set_buffers h [].

(** src/history.rs:230-237 [len], [is_empty] *)
Definition hist_len (h : history) : nat := length (buffers h).
Definition hist_is_empty (h : history) : bool := negb (nonempty (buffers h)).

(** Keep the newest [n] elements: the [pop_front] loops at 174-179 and 372-377 *)
Definition keep_last {A} (n : nat) (l : list A) : list A :=
  if n <=? length l then skipn (length l - n) l else l.

(** src/history.rs:369-378 [truncate] *)
Definition hist_truncate (h : history) : history :=
  set_buffers h (keep_last (h_maxfile h) (buffers h)).

(** src/history.rs:304-309 [remove_duplicates] on the list: an entry is
    compared after joining its lines, that is without its newlines. *)
Definition joined (b : buffer) : text := concat (buf_lines b).
Definition retain_not (input : text) (l : list buffer) : list buffer :=
  filter (fun b => negb (text_eqb (joined b) input)) l.
Definition remove_duplicates (h : history) (input : text) : history :=
  set_buffers h (retain_not input (buffers h)).

(** src/history.rs:133-141: pop from the back, remove the earlier duplicates,
    collect.  [rl] is the list newest first; the result is oldest first.
    Every round removes one element, so the length is enough fuel. *)
Fixpoint dedup_rev {A} (same : A -> A -> bool) (n : nat) (rl : list A) (acc : list A) : list A :=
  match n, rl with
  | S n', x :: rl' => dedup_rev same n' (filter (fun y => negb (same x y)) rl') (x :: acc)
  | _, _ => acc
  end.
Definition dedup_buffers (l : list buffer) : list buffer :=
  dedup_rev (fun x y => text_eqb (joined y) (data x)) (length l) (rev l) [].

(** Result of the loading functions: [Some n] is [Ok(n)], [None] an error. *)

(** src/history.rs:98-145 [load_history_file_test] *)
Definition load_history_file_test (w : fs) (h : history) (p : path) (len : nat) (append : bool)
  : option nat * history :=
  match fs_open w p with
  | None => (None, h)                      (* missing or unreadable *)
  | Some bs =>
    let new_length := length bs in
    let h1 := if (new_length =? 0) && (len =? 0) && negb append then clear_history h else h in
    let h2 :=
      if negb (new_length =? len) then
        let h3 := if append then h1 else clear_history h1 in
        let h4 := set_buffers h3 (buffers h3 ++ map buf_of (take_entries (file_lines bs))) in
        let h5 := hist_truncate h4 in
        if h_loaddup h5 then h5 else set_buffers h5 (dedup_buffers (buffers h5))
      else h1 in
    (Some new_length, h2)
  end.

(** src/history.rs:75-89 [load_history] *)
Definition load_history (w : fs) (h : history) (append : bool) : option nat * history :=
  match h_file h with
  | None => (None, h)
  | Some p =>
    match load_history_file_test w h p (h_fsize h) append with
    | (Some l, h') => (Some l, set_fsize h' l)
    | (None, h') => (None, h')
    end
  end.

(** src/history.rs:92-94 [load_history_file] *)
Definition load_history_file (w : fs) (h : history) (p : path) (append : bool)
  : option nat * history := load_history_file_test w h p 0 append.

(** The bytes written for a list of lines (each followed by "\n"). *)
Definition lines_bytes (l : list text) : list byte := flat_map (fun t => enc t ++ [10%N]) l.

(** src/history.rs:150-200 [deduplicate_history_file].  Errors are ignored by
    the only caller. *)
Definition deduplicate_history_file (w : fs) (p : path) (maxsize : nat) : fs :=
  match fs_open w p with
  | None => w
  | Some bs =>
    let buf := take_entries (file_lines bs) in
    let kept := keep_last maxsize buf in
    let dd := dedup_rev text_eqb (length kept) (rev kept) [] in
    if negb (length buf =? length dd) then
      match fs_create w p with
      | None => w
      | Some w' => fs_append w' p (lines_bytes dd)
      end
    else w
  end.

(** src/history.rs:203-216 [set_file_name_and_load_history] *)
Definition set_file_name_and_load_history (w : fs) (h : history) (p : path)
  : option nat * history * fs :=
  let h1 := set_fsize (set_hfile h (Some p)) 0 in
  if fs_exists w p then
    match load_history_file w h1 p false with
    | (Some l, h2) => (Some l, set_fsize h2 l, w)
    | (None, h2) => (None, h2, w)
    end
  else
    match fs_create w p with
    | Some w' => (Some 0, h1, w')
    | None => (None, h1, w)
    end.

(** src/history.rs:380-390 [overwrite_history]; the flag says [Ok] *)
Definition overwrite_history (w : fs) (h : history) (p : path) : bool * history * fs :=
  let h1 := hist_truncate h in
  match fs_create w p with
  | None => (false, h1, w)
  | Some w' => (true, h1, fs_append w' p (lines_bytes (map data (buffers h1))))
  end.

(** src/history.rs:392-398 [commit_to_file_path] *)
Definition commit_to_file_path (w : fs) (h : history) (p : path) : bool * history * fs :=
  if h_inc h then (true, h, w) else overwrite_history w h p.

(** src/history.rs:400-404 [commit_to_file] *)
Definition commit_to_file (w : fs) (h : history) : history * fs :=
  match h_file h with
  | None => (h, w)
  | Some p => let '(_, h', w') := commit_to_file_path w h p in (h', w')
  end.

(** [self.buffers.back().map(|b| b.to_string()) == Some(new.to_string())] *)
Definition back_is (l : list buffer) (t : text) : bool :=
  match last_opt l with Some b => text_eqb (data b) t | None => false end.

(** src/history.rs:259-286 the compaction step of [push] (for [inc_append] with
    a file name [p]) *)
Definition push_compact (w : fs) (h : history) (p : path) : history * fs :=
  if h_loaddup h then (set_compact h 1, w)
  else
    let h1 := set_compact h (S (h_compact h)) in
    if 29 <? h_compact h1 then
      if h_share h1 then
        let '(_, h2) := load_history w h1 false in
        let '(_, h3, w3) := overwrite_history w h2 p in
        (set_compact h3 0, w3)
      else (set_compact h1 0, deduplicate_history_file w p (h_maxfile h1))
    else (h1, w).

(** src/history.rs:287-298 the append step of [push] *)
Definition push_append (w : fs) (h : history) (p : path) (t : text) : history * fs :=
  if fs_can_append w p && (0 <? h_compact h)
  then (set_fsize h (h_fsize h + (blen t + 1)), fs_append w p (enc t ++ [10%N]))
  else (h, w).

(** src/history.rs:242-301 [push] (always [Ok]).  The [while] loop popping from
    the front keeps the newest [h_maxbuf] entries. *)
Definition hist_push (w : fs) (h : history) (b : buffer) : history * fs :=
  if negb (h_appdup h) && back_is (buffers h) (data b) then (h, w)
  else
    let l := buffers h ++ [b] in
    let h1 := set_buffers h (skipn (length l - h_maxbuf h) l) in
    match h_file h1 with
    | Some p =>
      if h_inc h1 then
        let '(h2, w2) := push_compact w h1 p in
        push_append w2 h2 p (data b)
      else (h1, w)
    | None => (h1, w)
    end.

(** src/history.rs:311-318 [get_match] over a list of indices *)
Definition get_match (h : history) (vals : list nat) (term : buffer) : option nat :=
  find (fun i => match nth_error (buffers h) i with
                 | Some t => starts_with t term
                 | None => false
                 end) vals.

(** src/history.rs:322-333 [get_newest_match] *)
Definition get_newest_match (h : history) (cur : option nat) (b : buffer) : option nat :=
  let pos := match cur with Some p => p | None => length (buffers h) end in
  if 0 <? pos then get_match h (rev (seq 0 pos)) b else None.

(** src/history.rs:335-353 [get_history_subset]: [v] collects the indices that
    start with the term while the filter runs; they are appended. *)
Definition get_history_subset (h : history) (term : buffer) : list nat :=
  let at_ i (f : buffer -> bool) :=
    match nth_error (buffers h) i with Some t => f t | None => false end in
  let ret := filter (fun i => at_ i (fun t => contains t term && negb (starts_with t term)
                                              && negb (buf_eqb t term)))
                    (seq 0 (hist_len h)) in
  let v := filter (fun i => at_ i (fun t => starts_with t term)) (seq 0 (hist_len h)) in
  ret ++ v.

(** src/history.rs:355-361 [search_index] *)
Definition search_index (h : history) (term : buffer) : list nat :=
  filter (fun i => match nth_error (buffers h) i with
                   | Some t => contains t term
                   | None => false
                   end) (seq 0 (hist_len h)).

(** src/history.rs:416-422 [Index] *)
Definition hist_get (h : history) (i : nat) : res buffer := index (buffers h) i.

(** * Crash model

    [overwrite_history], [deduplicate_history_file] (src/history.rs:189-197,
    380-389) truncate the file with [File::create] and then write through a
    [BufWriter], which hands the data to the system in some chunks; [push]
    (287-298) appends through a [BufWriter].  A crash leaves the file system in
    one of the states in between.  [append_states] and [rewrite_states] list
    them for a given chunking; nothing is assumed about the chunks except that
    they make up the data. *)
Fixpoint append_states (w : fs) (p : path) (chunks : list (list byte)) : list fs :=
  w :: match chunks with
       | [] => []
       | c :: cs => append_states (fs_append w p c) p cs
       end.
Definition rewrite_states (w : fs) (p : path) (chunks : list (list byte)) : list fs :=
  w :: match fs_create w p with
       | Some w' => append_states w' p chunks
       | None => []
       end.
