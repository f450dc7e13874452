(** Model of src/complete.rs on Unix paths. *)
From Verif Require Import Base Utf8 BufferModel UtilModel.

(** src/complete.rs:23-31 [BasicCompleter::completions] *)
Definition basic_completions (prefixes : list text) (start : text) : list text :=
  filter (prefixb start) prefixes.

(** * std::path on Unix, for paths that are texts *)

Definition c_slash : char := 47%N.
Definition c_dot : char := 46%N.

(** [std::path::Component]: an empty piece between slashes is no component, nor
    is "." except at the very start of a relative path. *)
Inductive comp := CRoot | CCur | CParent | CNormal (t : text).

Definition is_absolute (p : text) : bool := prefixb [c_slash] p.

Definition comp_of (first : bool) (t : text) : option comp :=
  match t with
  | [] => None
  | _ => if text_eqb t [c_dot] then (if first then Some CCur else None)
         else if text_eqb t [c_dot; c_dot] then Some CParent
         else Some (CNormal t)
  end.
Definition opt_list {A} (o : option A) : list A := match o with Some x => [x] | None => [] end.

(** [Path::components] *)
Definition components (p : text) : list comp :=
  match split_on c_slash p with
  | [] => []
  | t :: ts =>
    (if is_absolute p then [CRoot] else opt_list (comp_of true t))
      ++ flat_map (fun t => opt_list (comp_of false t)) ts
  end.

(** [Path::file_name]: the last component if it is an ordinary name *)
Definition file_name (p : text) : option text :=
  match last_opt (components p) with Some (CNormal t) => Some t | _ => None end.

(** [Path::ends_with("..")] *)
Definition ends_with_dotdot (p : text) : bool :=
  match last_opt (components p) with Some CParent => true | _ => false end.

(** Trailing slashes and "/." pieces are dropped ([Components::as_path] after
    taking the last component).  [r] is the path reversed; the first slash of an
    absolute path and the first piece of a relative one are kept. *)
Fixpoint trim_back (fuel : nat) (r : text) : text :=
  match fuel with
  | O => r
  | S f =>
    match r with
    | [_] => r
    | a :: r' =>
      if N.eqb a c_slash then trim_back f r'
      else match r' with
           | b :: _ => if N.eqb a c_dot && N.eqb b c_slash then trim_back f r' else r
           | [] => r
           end
    | [] => r
    end
  end.
Definition trim (p : text) : text := rev (trim_back (length p) (rev p)).

Fixpoint drop_piece (r : text) : text :=
  match r with
  | [] => []
  | a :: r' => if N.eqb a c_slash then r else drop_piece r'
  end.

(** [Path::parent]: without the last component; [None] for the root and for the
    empty path *)
Definition parent (p : text) : option text :=
  match last_opt (components p) with
  | None | Some CRoot => None
  | Some _ => Some (trim (rev (drop_piece (rev (trim p)))))
  end.

(** [PathBuf::pop] *)
Definition path_pop (p : text) : text := match parent p with Some q => q | None => p end.

(** [PathBuf::push] *)
Definition path_push (p q : text) : text :=
  if is_absolute q then q
  else match rev p with
       | [] => q
       | c :: _ => if N.eqb c c_slash then p ++ q else p ++ c_slash :: q
       end.

(** [str::replace] *)
Fixpoint replace_ (fuel : nat) (pat by_ t : text) : text :=
  match fuel with
  | O => t
  | S f =>
    match t with
    | [] => []
    | c :: t' => if prefixb pat t then by_ ++ replace_ f pat by_ (skipn (length pat) t)
                 else c :: replace_ f pat by_ t'
    end
  end.
Definition replace (pat by_ t : text) : text := replace_ (length t) pat by_ t.

Definition ends_with_slash (t : text) : bool :=
  match last_opt t with Some c => N.eqb c c_slash | None => false end.

(** src/complete.rs:61-69: [start] (shadowed) and [start_owned] *)
Definition unquote (start : text) : res (text * text) :=
  match start with
  | c :: inner =>
    if N.eqb c 34%N || N.eqb c 39%N then
      match inner with
      | [] => Val ([], [])
      | _ => rbind (bsplit inner (blen inner - 1)) (fun '(a, _) => Val (a, a))
      end
    else Val (start, replace (c_bs :: [c_sp]) [c_sp] start)
  | [] => Val ([], [])
  end.

(** A directory reader: [None] if the directory cannot be read, else the
    entries with the answer to "is it a directory" ([lower] is
    [str::to_lowercase]; names are UTF-8). *)
Definition reader := text -> option (list (text * bool)).

(** src/complete.rs:57-161 [FilenameCompleter::completions] *)
Definition filename_completions (read_dir : reader) (lower : text -> text)
           (working_dir : option text) (case_sensitive : bool) (start0 : text)
  : res (list text) :=
  rbind (unquote start0) (fun '(start, owned) =>
    let full := match working_dir with Some wd => path_push wd owned | None => owned end in
    let fold_ t := if case_sensitive then t else lower t in
    rbind (match parent full with
           | Some par =>
             if nonempty start && negb (ends_with_slash owned) && negb (ends_with_dotdot full)
             then match file_name full with
                  | None => Pan PUnwrap
                  | Some n => Val (par, fold_ n, false)
                  end
             else Val (full, [], negb (nonempty start) || ends_with_slash start
                                 || ends_with_dotdot full)
           | None => Val (full, [], negb (nonempty start) || ends_with_slash start
                                    || ends_with_dotdot full)
           end)
      (fun '(p, start_name, completing_dir) =>
        match read_dir p with
        | None => Val []
        | Some entries =>
          let one (e : text * bool) : option text :=      (* None: [return vec![]] *)
            let '(name, is_dir) := e in
            let a :=
              if negb (is_absolute owned) then Some []
              else if completing_dir then Some owned
              else match parent owned with Some q => Some q | None => None end in
            match a with
            | None => None
            | Some a =>
              let s := path_push a name ++ (if is_dir then [c_slash] else []) in
              let b := if completing_dir then owned else path_pop owned in
              Some (replace [c_sp] [c_bs; c_sp] (path_push b s))
            end in
          let matching := filter (fun e => negb (nonempty start_name)
                                           || prefixb start_name (fold_ (fst e))) entries in
          if forallb (fun e => match one e with Some _ => true | None => false end) matching
          then Val (flat_map (fun e => opt_list (one e)) matching)
          else Val []
        end)).
