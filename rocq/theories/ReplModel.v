(** Model of the example programs (examples/comments.rs, examples/nocomments.rs)
    that read line after line, and of [revert_all_history] (src/context.rs). *)
From Verif Require Import Base BufferModel UtilModel HistoryModel EditorState EditorModel KeymapModel ViModel.

(** One call of [read_line]: the surroundings at its start and the keys typed. *)
Record round := mkRound { r_env : env; r_keys : list (env * key) }.

(** src/context.rs:139-149, 171-192 [read_line] with the key map chosen by
    [Context::key_bindings]; the key map's state is dropped at the end. *)
Definition context_read_line (vi_keys : bool) (p : prompt_t) (f : option (text -> text))
           (h : history) (w : fs) (cb ttys : list tok) (r : round) : out ed text :=
  let drop {K} (o : out (K * ed) text) : out ed text :=
    match o with
    | ORet t (_, s) => ORet t s
    | OErr e (_, s) => OErr e s
    | OPanic q => OPanic q
    | OFuel => OFuel
    end in
  if vi_keys then drop (vi_read_line (r_env r) p f buf_new h w cb ttys (r_keys r))
  else drop (emacs_read_line (r_env r) p f buf_new h w cb ttys (r_keys r)).

(** How the loop stands: left by [break], waiting for the next line, or
    panicked.  [L] are the lines pushed onto the history so far. *)
Inductive standing :=
| Left (h : history) (w : fs) (L : list text)
| Waiting (vi_keys : bool) (h : history) (w : fs) (cb ttys : list tok) (L : list text)
| Panicked.

(** examples/comments.rs:90-147 (examples/nocomments.rs:75-122): the loop of
    [main]; messages printed for the user are left out. *)
Fixpoint main_loop (p : prompt_t) (f : option (text -> text)) (rs : list round)
         (vi_keys : bool) (h : history) (w : fs) (cb ttys : list tok) (L : list text) : standing :=
  match rs with
  | [] => Waiting vi_keys h w cb ttys L
  | r :: rs' =>
    match context_read_line vi_keys p f h w cb ttys r with
    | ORet t s =>
      if text_eqb t (str "exit") || text_eqb t [] then Left (ed_history s) (ed_fs s) L
      else
        let vi_keys' := if text_eqb t (str "emacs") then false
                        else if text_eqb t (str "vi") then true else vi_keys in
        let '(h', w') := hist_push (ed_fs s) (ed_history s) (buf_of t) in
        main_loop p f rs' vi_keys' h' w' (ed_cbuf s) (ed_tty s) (L ++ [t])
    | OErr EInterrupted s => main_loop p f rs' vi_keys (ed_history s) (ed_fs s) (ed_cbuf s) (ed_tty s) L
    | OErr EUnexpectedEof s => Left (ed_history s) (ed_fs s) L
    | OErr EOther _ | OPanic _ | OFuel => Panicked
    end
  end.

(** examples/comments.rs:71-151 (examples/nocomments.rs:56-126) [main] with the history file [name], once the
    loop is left: the file system and the lines pushed.  [Context::new]
    (src/context.rs:297-312) starts with a new history and the Emacs keys. *)
Definition main (p : prompt_t) (f : option (text -> text)) (w : fs) (name : path) (ttys : list tok)
           (rs : list round) : option (fs * list text) :=
  match set_file_name_and_load_history w hist_new name with
  | (Some _, h, w1) =>
    match main_loop p f rs false h w1 [] ttys [] with
    | Left h' w' L => Some (snd (commit_to_file w' h'), L)
    | _ => None
    end
  | (None, _, _) => None
  end.

(** src/context.rs:218-222 [revert_all_history] *)
Fixpoint revert_all (l : list buffer) : res (list buffer) :=
  match l with
  | [] => Val []
  | b :: l' => rbind (buf_revert b) (fun '(_, b') => rbind (revert_all l') (fun r => Val (b' :: r)))
  end.
Definition revert_all_history (h : history) : res history :=
  rbind (revert_all (buffers h)) (fun l => Val (set_buffers h l)).
