(** Common ground of the model: characters, texts, results with panics, and
    the state/error/panic monad in which the mutating Rust functions are
    written. *)
From Coq Require Export List NArith ZArith Arith Bool Lia.
From Coq Require String Ascii.
Export ListNotations.
Export String.StringSyntax.
Delimit Scope string_scope with string.

(** A Rust [char] is represented by its code point.  The model does not force
    it to be a Unicode scalar value; [scalar] (Utf8.v) says so where needed. *)
Notation char := N (only parsing).
Notation text := (list N) (only parsing).

(** ASCII string literals as texts. *)
Fixpoint str (s : String.string) : text :=
  match s with
  | String.EmptyString => []
  | String.String a s' => Ascii.N_of_ascii a :: str s'
  end.
Arguments str _%string.

Definition ch (s : String.string) : char := hd 0%N (str s).
Arguments ch _%string.

(** Character constants used by the code. *)
Definition c_nl : char := 10%N.       (* '\n' *)
Definition c_cr : char := 13%N.       (* '\r' *)
Definition c_sp : char := 32%N.       (* ' '  *)
Definition c_bs : char := 92%N.       (* '\\' *)
Definition c_hash : char := 35%N.     (* '#'  *)
Definition c_esc : char := 27%N.      (* '\x1B' *)
Definition c_bel : char := 7%N.       (* '\x07' *)
Definition c_tab : char := 9%N.       (* '\t' *)
Definition c_del : char := 127%N.     (* '\x7F' *)

Fixpoint text_eqb (a b : text) : bool :=
  match a, b with
  | [], [] => true
  | x :: a', y :: b' => N.eqb x y && text_eqb a' b'
  | _, _ => false
  end.

(** Ways in which the Rust code panics. *)
Inductive panic :=
| PDrain        (* Vec::drain with a range outside the vector *)
| PVecInsert    (* Vec::insert past the end *)
| PSlice        (* slicing [a..b] out of range *)
| PIndex        (* indexing out of range *)
| PBoundary     (* cutting a str inside a character *)
| PSub          (* usize subtraction below zero (overflow checks on) *)
| PU16          (* u16 subtraction below zero (overflow checks on) *)
| PUnreach      (* unreachable!() *)
| PUnwrap       (* unwrap() on None/Err *)
| PAssert       (* assert!() *)
| PDivZero.     (* remainder by zero *)

(** Errors of kind [io::Error] that the code produces or passes on. *)
Inductive ioerr := EInterrupted | EUnexpectedEof | EOther.

(** Result of a pure computation that may panic. *)
Inductive res (A : Type) :=
| Val (a : A)
| Pan (p : panic).
Arguments Val {A} a.
Arguments Pan {A} p.

Definition rbind {A B} (m : res A) (k : A -> res B) : res B :=
  match m with Val a => k a | Pan p => Pan p end.

(** usize subtraction with overflow checks. *)
Definition sub_chk (a b : nat) : res nat :=
  if b <=? a then Val (a - b) else Pan PSub.

(** [v\[i\]] *)
Definition index {A} (l : list A) (i : nat) : res A :=
  match nth_error l i with Some x => Val x | None => Pan PIndex end.

(** [&v\[start..end\]] *)
Definition slice {A} (l : list A) (s e : nat) : res (list A) :=
  if (s <=? e) && (e <=? length l)
  then Val (firstn (e - s) (skipn s l))
  else Pan PSlice.

(** Outcome of a stateful computation: normal return, an io::Error (the state
    is still there, the caller holds the &mut), a panic, or exhausted fuel
    (only the Vi keymap uses fuel; Vi termination theorems exclude it). *)
Inductive out (S A : Type) :=
| ORet (a : A) (s : S)
| OErr (e : ioerr) (s : S)
| OPanic (p : panic)
| OFuel.
Arguments ORet {S A} a s.
Arguments OErr {S A} e s.
Arguments OPanic {S A} p.
Arguments OFuel {S A}.

Definition M (S A : Type) := S -> out S A.

Definition ret {S A} (a : A) : M S A := fun s => ORet a s.
Definition fail {S A} (e : ioerr) : M S A := fun s => OErr e s.
Definition pan {S A} (p : panic) : M S A := fun _ => OPanic p.
Definition bind {S A B} (m : M S A) (k : A -> M S B) : M S B :=
  fun s => match m s with
           | ORet a s' => k a s'
           | OErr e s' => OErr e s'
           | OPanic p => OPanic p
           | OFuel => OFuel
           end.
Definition get {S} : M S S := fun s => ORet s s.
Definition put {S} (s' : S) : M S unit := fun _ => ORet tt s'.
Definition modify {S} (f : S -> S) : M S unit := fun s => ORet tt (f s).
Definition gets {S A} (f : S -> A) : M S A := fun s => ORet (f s) s.
Definition liftr {S A} (r : res A) : M S A :=
  fun s => match r with Val a => ORet a s | Pan p => OPanic p end.
Definition when {S} (b : bool) (m : M S unit) : M S unit :=
  if b then m else ret tt.

Declare Scope monad_scope.
Delimit Scope monad_scope with monad.
Notation "x <- m ;; k" := (bind m (fun x => k))
  (at level 61, m at next level, right associativity) : monad_scope.
Notation "' pat <- m ;; k" := (bind m (fun x => match x with pat => k end))
  (at level 61, pat pattern, m at next level, right associativity) : monad_scope.
Notation "m ;;; k" := (bind m (fun _ => k))
  (at level 61, right associativity) : monad_scope.

(** [for _ in 0..p { body }] where [body] answers whether to go on: the loop
    runs at most [p] times and stops at the first [false].  Written over the
    binary representation so that huge Vi counts stay computable; [ploop_nloop]
    (MonadLemmas.v) relates it to counting in unary. *)
Fixpoint ploop {S} (p : positive) (body : M S bool) : M S bool :=
  match p with
  | xH => body
  | xO q => bind (ploop q body) (fun c => if c then ploop q body else ret false)
  | xI q => bind body (fun c => if c
              then bind (ploop q body) (fun c => if c then ploop q body else ret false)
              else ret false)
  end.
Fixpoint nloop {S} (n : nat) (body : M S bool) : M S bool :=
  match n with
  | O => ret true
  | Datatypes.S n' => bind body (fun c => if c then nloop n' body else ret false)
  end.
Definition Nloop {S} (n : N) (body : M S bool) : M S unit :=
  match n with
  | N0 => ret tt
  | Npos p => bind (ploop p body) (fun _ => ret tt)
  end.

(** Iterating a stateful body over a list ([for x in l { body }]). *)
Fixpoint mfor {S A} (l : list A) (body : A -> M S unit) : M S unit :=
  match l with
  | [] => ret tt
  | x :: l' => bind (body x) (fun _ => mfor l' body)
  end.

(** Unicode tables and external string measures the code relies on:
    [char::is_whitespace], [is_alphanumeric], [is_lowercase], [is_uppercase],
    [to_uppercase], [to_lowercase], [UnicodeWidthStr::width] and the length of
    [strip_ansi_escapes::strip].  Arbitrary functions as far as the model is
    concerned. *)
Record unicode := mkUni {
  u_white : char -> bool;
  u_alnum : char -> bool;
  u_lower : char -> bool;
  u_upper : char -> bool;
  u_toupper : char -> text;
  u_tolower : char -> text;
  u_width : text -> nat;
  u_striplen : text -> nat
}.
