(** Specifications for src/history.rs: files, entries, sessions. *)
From Verif Require Import Base Utf8 BufferModel BufferSpec HistoryModel.

(** [r] holds the newest (last) [m] elements of [l], or all if there are fewer. *)
Definition newest {A} (m : nat) (l r : list A) : Prop :=
  exists old, l = old ++ r /\ length r = Nat.min m (length l).

(** [l] without the elements equal to the element kept just before; [prev] is
    the element before the first one. *)
Fixpoint collapse (prev : option text) (l : list text) : list text :=
  match l with
  | [] => []
  | x :: l' =>
    if (match prev with Some y => if list_eq_dec N.eq_dec x y then true else false | None => false end)
    then collapse prev l'
    else x :: collapse (Some x) l'
  end.

(** [r] is [l] with only the last occurrence of every element. *)
Inductive last_occ {A} : list A -> list A -> Prop :=
| lo_nil : last_occ [] []
| lo_keep : forall x l r, ~ In x l -> last_occ l r -> last_occ (x :: l) (x :: r)
| lo_drop : forall x l r, In x l -> last_occ l r -> last_occ (x :: l) r.

(** Pushing lines one after the other. *)
Fixpoint pushes (w : fs) (h : history) (l : list buffer) : history * fs :=
  match l with
  | [] => (h, w)
  | b :: l' => let '(h', w') := hist_push w h b in pushes w' h' l'
  end.

Definition texts (h : history) : list text := map data (buffers h).

(** * What a history file says *)
Definition uni_text (t : text) : Prop := Forall (fun c => scalar c = true) t.
Definition utf8 (bs : list byte) : Prop := exists t, uni_text t /\ bs = enc t.
Definition ends_cr (t : text) : Prop := exists t', t = t' ++ [c_cr].
Definition comment (t : text) : Prop := exists t', t = c_hash :: t'.

(** [add_entry t r r']: a comment is skipped, another line is an entry. *)
Inductive add_entry (t : text) (r : list text) : list text -> Prop :=
| ae_comment : comment t -> add_entry t r r
| ae_line : ~ comment t -> add_entry t r (t :: r).

(** [reads bs r]: [r] are the entries of a file with content [bs], up to the
    first line that is not UTF-8.  Lines end with "\n" or "\r\n"; the last one
    may lack the end. *)
Inductive reads : list byte -> list text -> Prop :=
| rd_end : reads [] []
| rd_unended : forall t r, uni_text t -> t <> [] -> ~ In c_nl t -> add_entry t [] r -> reads (enc t) r
| rd_lf : forall t rest r r', uni_text t -> ~ In c_nl t -> ~ ends_cr t ->
    reads rest r -> add_entry t r r' -> reads (enc t ++ 10%N :: rest) r'
| rd_crlf : forall t rest r r', uni_text t -> ~ In c_nl t ->
    reads rest r -> add_entry t r r' -> reads (enc t ++ [13%N; 10%N] ++ rest) r'
| rd_bad_last : forall p, ~ In 10%N p -> ~ utf8 p -> reads p []
| rd_bad : forall p rest, ~ In 10%N p -> ~ utf8 p -> reads (p ++ 10%N :: rest) [].

(** Lines that a history file can hold as they are. *)
Definition plain_line (t : text) : Prop :=
  uni_text t /\ ~ In c_nl t /\ ~ ends_cr t /\ ~ comment t.

(** The content of a file that can be read (and the file can be written). *)
Definition has_content (w : fs) (p : path) (bs : list byte) : Prop :=
  exists f, fs_files w p = Some f /\ f_bytes f = bs /\ f_readable f = true.
Definition can_write (w : fs) (p : path) : Prop :=
  exists f, fs_files w p = Some f /\ f_writable f = true.
(** [w'] is [w] with the content of [p] replaced. *)
Definition content_set (w w' : fs) (p : path) (bs : list byte) : Prop :=
  (exists f, fs_files w p = Some f /\ fs_files w' p = Some (mkFile bs (f_readable f) (f_writable f))) /\
  (forall q, q <> p -> fs_files w' q = fs_files w q).

(** * Sessions *)
Inductive hop :=
| HPush (b : buffer)
| HLoad (append : bool)
| HLoadFile (p : path) (append : bool)
| HSetFile (p : path)
| HCommit | HCommitPath (p : path)
| HClear | HRemove (t : text)
| HWorld (w : fs).               (* other programs change the files *)

Definition run_hop (s : history * fs) (o : hop) : history * fs :=
  let '(h, w) := s in
  match o with
  | HPush b => hist_push w h b
  | HLoad a => (snd (load_history w h a), w)
  | HLoadFile p a => (snd (load_history_file w h p a), w)
  | HSetFile p => let '(_, h', w') := set_file_name_and_load_history w h p in (h', w')
  | HCommit => commit_to_file w h
  | HCommitPath p => let '(_, h', w') := commit_to_file_path w h p in (h', w')
  | HClear => (clear_history h, w)
  | HRemove t => (remove_duplicates h t, w)
  | HWorld w' => (h, w')
  end.

(** Two processes with their own histories taking turns on the same files;
    [true] is the first one. *)
Fixpoint run2 (w : fs) (a b : history) (l : list (bool * text)) : history * history * fs :=
  match l with
  | [] => (a, b, w)
  | (true, t) :: l' => let '(a', w') := hist_push w a (buf_of t) in run2 w' a' b l'
  | (false, t) :: l' => let '(b', w') := hist_push w b (buf_of t) in run2 w' a b' l'
  end.
