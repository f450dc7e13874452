(** Keys with two names (C91). *)
From Verif Require Import Base BufferModel UtilModel HistoryModel EditorState EditorModel KeymapModel ViModel
  MonadLemmas EditorSpec InertProofs.
Local Open Scope monad_scope.

(** Backspace *)
Lemma ctrl_h : forall {K} (core : env -> key -> MK K unit) E x s,
  handle_key core E (KCtrl (ch "h")) (x, s) = handle_key core E KBackspace (x, s).
Proof.
  intros K core E x s. assert (H : is_char (ch "h") "h" = true) by reflexivity. revert H. generalize (ch "h") as c. intros c H.
  unfold handle_key. rewrite H. reflexivity.
Qed.

(** Two keys that [handle_key] leaves to the key map *)
Lemma other_key : forall {K} (core : env -> key -> MK K unit) E k x s, plain_key k ->
  match handle_key core E k (x, s), (core E k ;;; mod_ed skip_completions_hint ;;; (if e_wok E then ret false else fail EOther)) (x, s) with
  | a, b => match cur_buf s with Val _ => a = b | Pan p => a = OPanic p end
  end.
Proof.
  intros K core E k x s Hk. cbv zeta. destruct (cur_buf s) as [b|p] eqn:Hb.
  2: { unfold handle_key. unfold bind at 1. cbn [gete]. unfold bind at 1. rewrite Hb. reflexivity. }
  unfold handle_key. unfold bind at 1. cbn [gete]. unfold bind at 1. rewrite Hb. cbv beta zeta.
  assert (L : forall m : MK K unit, (done <- (m ;;; mod_ed skip_completions_hint ;;; ret false) ;; (if e_wok E then ret done else fail EOther)) (x, s) =
    (m ;;; mod_ed skip_completions_hint ;;; (if e_wok E then ret false else fail EOther)) (x, s)).
  { intro m. unfold bind. destruct (m (x, s)) as [u y| | |]; [|reflexivity..]. destruct (mod_ed skip_completions_hint y) as [u1 y1| | |]; reflexivity. }
  destruct k as [c0|c0|c0| | | | | | | | | | |]; try contradiction; try apply L.
  cbn [plain_key] in Hk. rewrite (Hk "h"%string) by (cbn; tauto). cbv beta iota.
  rewrite (Hk "c"%string), (Hk "d"%string), (Hk "f"%string), (Hk "r"%string), (Hk "s"%string) by (cbn; tauto). cbn [andb].
  apply L.
Qed.
Lemma named_key : forall {K} (core : env -> key -> MK K unit) E k x s,
  match k with KLeft | KUp | KDown | KHome | KEnd | KDelete => True | _ => False end ->
  match cur_buf s with
  | Val _ => handle_key core E k (x, s) = (core E k ;;; mod_ed skip_completions_hint ;;; (if e_wok E then ret false else fail EOther)) (x, s)
  | Pan p => handle_key core E k (x, s) = OPanic p
  end.
Proof.
  intros K core E k x s Hk. destruct (cur_buf s) as [b|p] eqn:Hb.
  2: { unfold handle_key. unfold bind at 1. cbn [gete]. unfold bind at 1. rewrite Hb. reflexivity. }
  unfold handle_key. unfold bind at 1. cbn [gete]. unfold bind at 1. rewrite Hb. cbv beta zeta.
  destruct k; try contradiction; cbv beta iota; unfold bind;
    (match goal with |- context [core E ?k0 (x, s)] => destruct (core E k0 (x, s)) as [u y| | |] end; [|reflexivity..]);
    destruct (mod_ed skip_completions_hint y) as [u1 y1| | |]; reflexivity.
Qed.

Lemma same_run : forall E c k x s, plain_key (KCtrl c) ->
  match k with KLeft | KUp | KDown | KHome | KEnd | KDelete => True | _ => False end ->
  emacs_core E (KCtrl c) = emacs_core E k ->
  handle_key emacs_core E (KCtrl c) (x, s) = handle_key emacs_core E k (x, s).
Proof.
  intros E c k x s Hc Hk He. pose proof (other_key emacs_core E (KCtrl c) x s Hc) as A. pose proof (named_key emacs_core E k x s Hk) as B.
  cbv zeta in A. destruct (cur_buf s) as [b|p]; [|congruence]. rewrite A, B, He. reflexivity.
Qed.
Ltac plain_letter := intros y [<-|[<-|[<-|[<-|[<-|[<-|[]]]]]]]; reflexivity.
Lemma home_end : forall E x s,
  handle_key emacs_core E (KCtrl (ch "a")) (x, s) = handle_key emacs_core E KHome (x, s) /\
  handle_key emacs_core E (KCtrl (ch "e")) (x, s) = handle_key emacs_core E KEnd (x, s) /\
  handle_key emacs_core E (KCtrl (ch "b")) (x, s) = handle_key emacs_core E KLeft (x, s) /\
  handle_key emacs_core E (KCtrl (ch "p")) (x, s) = handle_key emacs_core E KUp (x, s) /\
  handle_key emacs_core E (KCtrl (ch "n")) (x, s) = handle_key emacs_core E KDown (x, s).
Proof.
  intros E x s. repeat split; apply same_run; try exact I; try plain_letter; reflexivity.
Qed.

(** Ctrl-d on a line that is not empty *)
Lemma ctrl_d : forall E x s t n, line_is s t n -> t <> [] ->
  handle_key emacs_core E (KCtrl (ch "d")) (x, s) = handle_key emacs_core E KDelete (x, s).
Proof.
  intros E x s t n [b [Hb [Hd _]]] Ht.
  assert (He : buf_is_empty b = false).
  { unfold buf_is_empty. rewrite Hd. destruct t; [contradiction|reflexivity]. }
  pose proof (named_key emacs_core E KDelete x s I) as B. rewrite Hb in B. rewrite B.
  assert (Hc : emacs_core E (KCtrl (ch "d")) = emacs_core E KDelete) by reflexivity. rewrite <- Hc.
  assert (N : forall y, In y ["h"; "c"; "f"; "r"; "s"]%string -> is_char (ch "d") y = false) by (intros y [<-|[<-|[<-|[<-|[<-|[]]]]]]; reflexivity).
  clear Hc B. revert N. generalize (ch "d") as c. intros c N.
  unfold handle_key. unfold bind at 1. cbn [gete]. unfold bind at 1. rewrite Hb. cbv beta zeta. rewrite He.
  rewrite (N "h"%string) by (cbn; tauto). cbv beta iota.
  rewrite (N "c"%string), (N "f"%string), (N "r"%string), (N "s"%string) by (cbn; tauto). rewrite Bool.andb_false_r. cbn [andb].
  unfold bind. destruct (emacs_core E (KCtrl c) (x, s)) as [u y| | |]; [|reflexivity..].
  destruct (mod_ed skip_completions_hint y) as [u1 y1| | |]; reflexivity.
Qed.

(** Ctrl-f at the end of the line or without a suggestion *)
Lemma ctrl_f : forall E x s t n, line_is s t n -> ed_noeol s = false -> n = length t \/ ed_sugg s = None ->
  handle_key emacs_core E (KCtrl (ch "f")) (x, s) = handle_key emacs_core E KRight (x, s).
Proof.
  intros E x s t n [b [Hb [Hd Hn]]] He Hq.
  assert (Hc : emacs_core E (KCtrl (ch "f")) = emacs_core E KRight) by reflexivity.
  assert (N : forall y, In y ["h"; "c"; "d"; "r"; "s"]%string -> is_char (ch "f") y = false) by (intros y [<-|[<-|[<-|[<-|[<-|[]]]]]]; reflexivity).
  assert (R : is_char (ch "f") "f" = true) by reflexivity.
  revert Hc N R. generalize (ch "f") as c. intros c Hc N R.
  unfold handle_key. unfold bind at 1. cbn [gete]. unfold bind at 1. rewrite Hb. cbv beta zeta.
  rewrite (N "h"%string) by (cbn; tauto). cbv beta iota.
  rewrite (N "c"%string), (N "d"%string), R, (N "r"%string), (N "s"%string) by (cbn; tauto). cbn [andb].
  symmetry. unfold bind at 1 2 3. cbn [gete]. unfold bind at 1. rewrite Hb. rewrite Hc.
  destruct (showing_autosuggestion s) eqn:Es.
  - assert (A : cursor_is_at_end_of_line s = Val true).
    { destruct Hq as [Hq|Hq].
      - unfold cursor_is_at_end_of_line. rewrite Hb. cbn. rewrite He. unfold num_chars. rewrite Hd, Hn, Hq, Nat.eqb_refl. reflexivity.
      - exfalso. unfold showing_autosuggestion in Es. rewrite Hq in Es. rewrite ?Bool.andb_false_r in Es. discriminate. }
    unfold bind. rewrite A. reflexivity.
  - reflexivity.
Qed.
