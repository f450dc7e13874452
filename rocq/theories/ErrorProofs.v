(** Errors: apart from Ctrl-C and Ctrl-D only a failing terminal makes a
    keystroke fail. *)
From Verif Require Import Base Utf8 BufferModel UtilModel HistoryModel EditorState EditorModel
  KeymapModel ViModel MonadLemmas EditorLemmas CursorProofs.
Local Open Scope monad_scope.

(** The terminal answers: its size is known and writing works. *)
Definition tty_ok (E : env) : Prop := e_wok E = true /\ e_size E <> None.

Definition errs {S A} (X : ioerr -> Prop) (m : M S A) : Prop :=
  forall s, match m s with OErr e _ => X e | _ => True end.

Lemma errs_bind : forall {S A B} X (m : M S A) (k : A -> M S B),
  errs X m -> (forall a, errs X (k a)) -> errs X (bind m k).
Proof.
  intros S A B X m k Hm Hk s. unfold bind. specialize (Hm s). destruct (m s) as [a s'| | |]; auto.
  apply Hk.
Qed.
Lemma errs_ret : forall {S A} X (a : A), errs X (@ret S A a).
Proof. intros S A X a s. exact I. Qed.
Lemma errs_pan : forall {S A} X p, errs X (@pan S A p).
Proof. intros S A X p s. exact I. Qed.
Lemma errs_get : forall {S} X, errs X (@get S).
Proof. intros S X s. exact I. Qed.
Lemma errs_gets : forall {S A} X (f : S -> A), errs X (gets f).
Proof. intros S A X f s. exact I. Qed.
Lemma errs_modify : forall {S} X (f : S -> S), errs X (modify f).
Proof. intros S X f s. exact I. Qed.
Lemma errs_liftr : forall {S A} X (r : res A), errs X (@liftr S A r).
Proof. intros S A X r s. unfold liftr. destruct r; exact I. Qed.
Lemma errs_when : forall {S} X b (m : M S unit), errs X m -> errs X (when b m).
Proof. intros S X b m H. destruct b; [exact H|apply errs_ret]. Qed.
Lemma errs_mfor : forall {S A} X (body : A -> M S unit) l, (forall x, errs X (body x)) -> errs X (mfor l body).
Proof.
  intros S A X body l H. induction l as [|x l IH]; cbn [mfor]; [apply errs_ret|].
  apply errs_bind; [apply H|intros _; exact IH].
Qed.
Lemma errs_Nloop : forall {S} X n (body : M S bool), errs X body -> errs X (Nloop n body).
Proof.
  intros S X n body H. unfold Nloop. destruct n as [|p]; [apply errs_ret|].
  apply errs_bind; [|intros; apply errs_ret].
  induction p as [q IH|q IH|]; cbn [ploop].
  - apply errs_bind; [exact H|]. intros [|]; [|apply errs_ret].
    apply errs_bind; [exact IH|]. intros [|]; [exact IH|apply errs_ret].
  - apply errs_bind; [exact IH|]. intros [|]; [exact IH|apply errs_ret].
  - exact H.
Qed.
Lemma errs_lift : forall {K A} X (m : ME A), errs X m -> errs X (@lift K A m).
Proof. intros K A X m H [k s]. unfold lift. specialize (H s). destruct (m s); exact H. Qed.
Lemma errs_getk : forall {K} X, errs X (@getk K).
Proof. intros K X [k s]. exact I. Qed.
Lemma errs_gete : forall {K} X, errs X (@gete K).
Proof. intros K X [k s]. exact I. Qed.
Lemma errs_modk : forall {K} X (f : K -> K), errs X (modk f).
Proof. intros K X f [k s]. exact I. Qed.
Lemma errs_mod_ed : forall {K} X (f : ed -> ed), errs X (@mod_ed K f).
Proof. intros K X f [k s]. exact I. Qed.
Lemma errs_get_cur : forall X, errs X get_cur.
Proof. intros X s. unfold get_cur. destruct (cur_buf s); exact I. Qed.
Lemma errs_with_cur_mut : forall {A} X (f : buffer -> res (A * buffer)), errs X (with_cur_mut f).
Proof.
  intros A X f. apply errs_bind.
  - intro s. unfold cur_prep. edsimp. destruct (ed_loc s); [|exact I].
    destruct (ed_hvalid s); [exact I|]. destruct (hist_get _ _); [|exact I].
    destruct (copy_buffer _ _); exact I.
  - intros _ s. unfold cur_upd. destruct (ed_loc s);
      [destruct (f (ed_hist s)) as [[? ?]|]|destruct (f (ed_new s)) as [[? ?]|]]; exact I.
Qed.

(** What remains when the terminal fails. *)
Definition ttyerr (E : env) (e : ioerr) : Prop := e = EOther /\ ~ tty_ok E.

Section Env.
  Context (E : env).
  Notation X := (ttyerr E).

  Lemma errs_write : forall t, errs X (tty_write E t).
  Proof.
    intros t s. unfold tty_write. destruct (e_wok E) eqn:Ew; [exact I|].
    split; [reflexivity|]. intros [H _]. congruence.
  Qed.
  Lemma errs_emit : forall t, errs X (emit E t).
  Proof.
    intros t s. unfold emit. destruct (e_wok E) eqn:Ew; [exact I|].
    split; [reflexivity|]. intros [H _]. congruence.
  Qed.
  Lemma errs_display_impl : forall b, errs X (display_impl E b).
  Proof.
    intro b. unfold display_impl. apply errs_bind; [apply errs_get|]. intro s.
    apply errs_bind; [apply errs_liftr|]. intros [pr rpw].
    destruct (e_size E) as [w|] eqn:Es.
    - destruct (terminal_width (Some w)) eqn:Et; [|destruct w; discriminate].
      apply errs_bind; [apply errs_get_cur|]. intro buf.
      apply errs_bind; [apply errs_modify|]. intros _.
      apply errs_bind; [apply errs_get|]. intro s2.
      apply errs_bind; [apply errs_liftr|]. intros [toks tcl].
      apply errs_bind; [apply errs_modify|]. intros _. apply errs_emit.
    - intro s0. split; [reflexivity|]. intros [_ H]. congruence.
  Qed.
  Lemma errs_display : errs X (display E).
  Proof.
    unfold display. apply errs_bind; [apply errs_get|]. intro s.
    apply errs_bind; [apply errs_when, errs_modify|]. intros _.
    apply errs_bind; [apply errs_get|]. intro s2.
    apply errs_bind; [apply errs_liftr|]. intros g.
    apply errs_bind; [apply errs_modify|]. intros _. apply errs_display_impl.
  Qed.
End Env.

#[export] Hint Resolve errs_write errs_display errs_display_impl errs_get_cur errs_with_cur_mut : er.
Ltac er1 :=
  cbv beta zeta;
  match goal with
  | |- errs _ (bind _ _) => apply errs_bind; [|intro]
  | |- errs _ (ret _) => apply errs_ret
  | |- errs _ (pan _) => apply errs_pan
  | |- errs _ get => apply errs_get
  | |- errs _ (gets _) => apply errs_gets
  | |- errs _ (liftr _) => apply errs_liftr
  | |- errs _ (when _ _) => apply errs_when
  | |- errs _ (modify _) => apply errs_modify
  | |- errs _ (lift _) => apply errs_lift
  | |- errs _ getk => apply errs_getk
  | |- errs _ gete => apply errs_gete
  | |- errs _ (modk _) => apply errs_modk
  | |- errs _ (mod_ed _) => apply errs_mod_ed
  | |- errs _ (Nloop _ _) => apply errs_Nloop
  | |- errs _ (mfor _ _) => apply errs_mfor; intro
  | H : _ |- errs _ _ => solve [apply H]
  | |- errs _ (match ?x with _ => _ end) => destruct x
  | |- errs _ _ => solve [auto with er]
  end.
Ltac er := repeat er1.

Lemma er_move_end : forall E, errs (ttyerr E) (move_cursor_to_end_of_line E).
Proof. intro E. unfold move_cursor_to_end_of_line. er. Qed.
Lemma er_move_start : forall E, errs (ttyerr E) (move_cursor_to_start_of_line E).
Proof. intro E. unfold move_cursor_to_start_of_line. er. Qed.
Lemma er_move_to : forall E n, errs (ttyerr E) (move_cursor_to E n).
Proof. intros E n. unfold move_cursor_to. er. Qed.
Lemma er_move_left : forall E n, errs (ttyerr E) (move_cursor_left E n).
Proof. intros E n. unfold move_cursor_left. er. Qed.
Lemma er_move_right : forall E n, errs (ttyerr E) (move_cursor_right E n).
Proof. intros E n. unfold move_cursor_right. er. Qed.
Lemma er_insert : forall E t, errs (ttyerr E) (insert_chars_after_cursor E t).
Proof. intros E t. unfold insert_chars_after_cursor. er. Qed.
Lemma er_insert1 : forall E c, errs (ttyerr E) (insert_after_cursor E c).
Proof. intros E c. apply er_insert. Qed.
Lemma er_insert_str : forall E c, errs (ttyerr E) (insert_str_after_cursor E c).
Proof. intros E c. apply er_insert. Qed.
Lemma er_del_before : forall E, errs (ttyerr E) (delete_before_cursor E).
Proof. intros E. unfold delete_before_cursor. er. Qed.
Lemma er_del_after : forall E, errs (ttyerr E) (delete_after_cursor E).
Proof. intros E. unfold delete_after_cursor. er. Qed.
Lemma er_del_all_before : forall E, errs (ttyerr E) (delete_all_before_cursor E).
Proof. intros E. unfold delete_all_before_cursor. er. Qed.
Lemma er_del_all_after : forall E, errs (ttyerr E) (delete_all_after_cursor E).
Proof. intros E. unfold delete_all_after_cursor. er. Qed.
Lemma er_del_until : forall E n, errs (ttyerr E) (delete_until E n).
Proof. intros E n. unfold delete_until. er. Qed.
Lemma er_del_until_inc : forall E n, errs (ttyerr E) (delete_until_inclusive E n).
Proof. intros E n. unfold delete_until_inclusive. er. Qed.
Lemma er_del_word : forall E b, errs (ttyerr E) (delete_word_before_cursor E b).
Proof. intros E b. unfold delete_word_before_cursor. er. Qed.
Lemma er_clear : forall E, errs (ttyerr E) (clear E).
Proof. intros E. unfold clear. er. Qed.
#[export] Hint Resolve er_move_end er_move_start er_move_to er_move_left er_move_right
  er_insert er_insert1 er_insert_str er_del_before er_del_after er_del_all_before
  er_del_all_after er_del_until er_del_until_inc er_del_word er_clear : er.

Lemma er_undo_like : forall E f, errs (ttyerr E) (undo_like E f).
Proof. intros E f. unfold undo_like. er. Qed.
Lemma er_undo : forall E, errs (ttyerr E) (ed_undo E).
Proof. intro E. apply er_undo_like. Qed.
Lemma er_redo : forall E, errs (ttyerr E) (ed_redo E).
Proof. intro E. apply er_undo_like. Qed.
Lemma er_revert : forall E, errs (ttyerr E) (ed_revert E).
Proof. intro E. apply er_undo_like. Qed.
Lemma er_search : forall E b, errs (ttyerr E) (search E b).
Proof. intros E b. unfold search. er. Qed.
#[export] Hint Resolve er_undo er_redo er_revert er_search : er.
Lemma er_move_up : forall E, errs (ttyerr E) (move_up E).
Proof. intros E. unfold move_up. er. Qed.
Lemma er_move_down : forall E, errs (ttyerr E) (move_down E).
Proof. intros E. unfold move_down. er. Qed.
Lemma er_hist_start : forall E, errs (ttyerr E) (move_to_start_of_history E).
Proof. intros E. unfold move_to_start_of_history. er. Qed.
Lemma er_hist_end : forall E, errs (ttyerr E) (move_to_end_of_history E).
Proof. intros E. unfold move_to_end_of_history. er. Qed.
Lemma er_accept : forall E, errs (ttyerr E) (accept_autosuggestion E).
Proof. intros E. unfold accept_autosuggestion. er. Qed.
#[export] Hint Resolve er_move_up er_move_down er_hist_start er_hist_end er_accept : er.
Lemma er_complete : forall E, errs (ttyerr E) (complete E).
Proof. intros E. unfold complete. er. Qed.
Lemma er_newline : forall E, errs (ttyerr E) (handle_newline E).
Proof. intros E. unfold handle_newline. er. Qed.
#[export] Hint Resolve er_complete er_newline : er.

Lemma er_emacs_core : forall E k, errs (ttyerr E) (emacs_core E k).
Proof.
  intros E k. unfold emacs_core, emacs_alt, emacs_ctrl, handle_last_arg_fetch, emacs_move_word. er.
Qed.

Lemma er_set_editor_mode : forall E, errs (ttyerr E) (set_editor_mode E).
Proof. intro E. unfold set_editor_mode. er. Qed.
#[export] Hint Resolve er_set_editor_mode : er.
Lemma er_buf_mut : forall X f, errs X (buf_mut f).
Proof. intros X f. unfold buf_mut. er. Qed.
#[export] Hint Resolve er_buf_mut : er.
Lemma er_smpl : forall E m, errs (ttyerr E) (set_mode_preserve_last E m).
Proof. intros E m. unfold set_mode_preserve_last. er. Qed.
#[export] Hint Resolve er_smpl : er.
Lemma er_set_mode : forall E m, errs (ttyerr E) (set_mode E m).
Proof. intros E m. unfold set_mode. er. Qed.
Lemma er_pop_am : forall E m, errs (ttyerr E) (pop_mode_after_movement E m).
Proof. intros E m. unfold pop_mode_after_movement. er. Qed.
Lemma er_pop_mode : forall E, errs (ttyerr E) (pop_mode E).
Proof.
  intros E. unfold pop_mode. er. intros [k s]. unfold lift.
  destruct (display E s); exact I.
Qed.
Lemma er_abort : forall E, errs (ttyerr E) (normal_mode_abort E).
Proof. intros E. unfold normal_mode_abort. er. Qed.
Lemma er_vi_common : forall E k, errs (ttyerr E) (vi_common E k).
Proof. intros E k. unfold vi_common. er. Qed.
Lemma er_insert_reset : forall X, errs X insert_reset.
Proof. intro X. unfold insert_reset. er. Qed.
Lemma er_push_last : forall X k, errs X (push_last k).
Proof. intros X k. unfold push_last. er. Qed.
Lemma er_push_cur : forall X k, errs X (push_cur k).
Proof. intros X k. unfold push_cur. er. Qed.
Lemma er_mcr : forall X, errs X mcr.
Proof. intro X. unfold mcr. er. Qed.
#[export] Hint Resolve er_set_mode er_pop_am er_pop_mode er_abort er_vi_common
  er_insert_reset er_push_last er_push_cur er_mcr : er.
Lemma er_move_word : forall E a b n, errs (ttyerr E) (vi_move_word E a b n).
Proof. intros. unfold vi_move_word. er. Qed.
Lemma er_move_word_end : forall E a b n, errs (ttyerr E) (vi_move_word_end E a b n).
Proof. intros. unfold vi_move_word_end. er. Qed.
#[export] Hint Resolve er_move_word er_move_word_end : er.
Lemma er_move_to_char : forall E k m, errs (ttyerr E) (vi_move_to_char E k m).
Proof. intros. unfold vi_move_to_char. er. Qed.
Lemma er_tilde : forall E, errs (ttyerr E) (tilde_step E).
Proof. intros. unfold tilde_step. er. Qed.
#[export] Hint Resolve er_move_to_char er_tilde : er.

Lemma er_vi_repeat : forall E rec, (forall k, errs (ttyerr E) (rec k)) -> errs (ttyerr E) (vi_repeat rec).
Proof. intros E rec H. unfold vi_repeat. er. Qed.
Lemma er_vi_insert : forall rec E k, (forall k, errs (ttyerr E) (rec k)) -> errs (ttyerr E) (vi_insert rec E k).
Proof. intros rec E k H. unfold vi_insert. er. Qed.
Lemma er_vi_normal : forall rec E k, (forall k, errs (ttyerr E) (rec k)) -> errs (ttyerr E) (vi_normal rec E k).
Proof. intros rec E k H. pose proof (er_vi_repeat E rec H) as Hr. unfold vi_normal. er. Qed.
Lemma er_vi_replace : forall E k, errs (ttyerr E) (vi_replace E k).
Proof. intros. unfold vi_replace. er. Qed.
Lemma er_vi_doc : forall rec E k, (forall k, errs (ttyerr E) (rec k)) -> errs (ttyerr E) (vi_delete_or_change rec E k).
Proof.
  intros rec E k H. pose proof (er_vi_normal rec E k H) as Hn. unfold vi_delete_or_change. er.
Qed.
Lemma er_finally : forall X m f, errs X m -> errs X (finally m f).
Proof.
  intros X m f H x. unfold finally. specialize (H x). destruct (m x) as [a [v s]|e [v s]| |]; exact H.
Qed.
#[export] Hint Resolve er_finally : er.
Lemma er_vi_g : forall E k, errs (ttyerr E) (vi_g E k).
Proof. intros. unfold vi_g. er. Qed.
#[export] Hint Resolve er_vi_replace er_vi_g : er.
Lemma er_vi_core_fuel : forall f E k, errs (ttyerr E) (vi_core_fuel f E k).
Proof.
  induction f as [|f IH]; intros E k; [intro s; exact I|]. cbn [vi_core_fuel].
  pose proof (er_vi_normal _ E k (IH E)). pose proof (er_vi_insert _ E k (IH E)).
  pose proof (er_vi_doc _ E k (IH E)). er.
Qed.
Lemma er_vi_core : forall E k, errs (ttyerr E) (vi_core E k).
Proof. intros E k. unfold vi_core. pose proof er_vi_core_fuel. er. Qed.

(** * Ctrl-C, Ctrl-D and everything else *)

(** The reasons for which handling a key fails. *)
Definition key_err (E : env) (k : key) (line : text) (e : ioerr) : Prop :=
  ttyerr E e \/
  (k = KCtrl (ch "c") /\ e = EInterrupted) \/
  (k = KCtrl (ch "d") /\ line = [] /\ e = EUnexpectedEof).

Lemma errs_fail_other : forall {S A} E, e_wok E = false -> errs (ttyerr E) (@fail S A EOther).
Proof. intros S A E H s. split; [reflexivity|]. intros [H1 _]. congruence. Qed.

Lemma errs_mono : forall {S A} (X Y : ioerr -> Prop) (m : M S A),
  (forall e, X e -> Y e) -> errs X m -> errs Y m.
Proof. intros S A X Y m H Hm s. specialize (Hm s). destruct (m s); auto. Qed.

Lemma handle_key_err : forall {K} (core : env -> key -> MK K unit) E k x s b,
  (forall k, errs (ttyerr E) (core E k)) -> cur_buf s = Val b ->
  match handle_key core E k (x, s) with
  | OErr e _ => key_err E k (data b) e
  | _ => True
  end.
Proof.
  intros K core E k x s b Hc Hb. unfold handle_key, bind at 1 2. cbn [gete]. rewrite Hb.
  set (em := buf_is_empty b).
  assert (He : em = true -> data b = []).
  { unfold em, buf_is_empty. destruct (data b); [auto|discriminate]. }
  match goal with |- match ?m (x, s) with _ => _ end => change (match m (x, s) with OErr e _ => key_err E k (data b) e | _ => True end);
    cut (errs (key_err E k (data b)) m); [intro G; exact (G (x, s))|] end.
  clearbody em.
  assert (T : forall e, ttyerr E e -> key_err E k (data b) e) by (intros e H; left; exact H).
  assert (Hend : forall d : bool, errs (key_err E k (data b)) (if e_wok E then @ret (K * ed) bool d else fail EOther)).
  { intro d. apply (errs_mono (ttyerr E)); [exact T|]. destruct (e_wok E) eqn:Ew; [apply errs_ret|].
    apply errs_fail_other. exact Ew. }
  apply errs_bind; [|intro; apply Hend].
  assert (Hoth : forall k', errs (key_err E k (data b)) (core E k' ;;; mod_ed skip_completions_hint ;;; ret false)).
  { intro k'. apply (errs_mono (ttyerr E)); [exact T|]. er. }
  assert (L : forall A (m : ME A), errs (ttyerr E) m -> errs (key_err E k (data b)) (@lift K A m)).
  { intros A m H. apply (errs_mono (ttyerr E)); [exact T|]. apply errs_lift. exact H. }
  destruct k as [c|c|c| | | | | | | | | | |n]; try apply Hoth.
  - destruct (N.eqb c c_tab); [apply errs_bind; [apply L; auto with er|intro; apply errs_ret]|].
    destruct (N.eqb c c_nl); [apply L; auto with er|apply Hoth].
  - destruct (is_char c "h"); [apply Hoth|].
    destruct (is_char c "c") eqn:E1.
    { apply N.eqb_eq in E1. subst c. apply errs_bind; [apply L; auto with er|]. intros _ y.
      right. left. split; reflexivity. }
    destruct (is_char c "d" && em) eqn:E2.
    { apply andb_true_iff in E2. destruct E2 as [E2 E3]. apply N.eqb_eq in E2. subst c.
      apply errs_bind; [apply L; auto with er|]. intros _ y.
      right. right. split; [reflexivity|]. split; [apply He; exact E3|reflexivity]. }
    destruct (is_char c "f" && _); [apply errs_bind; [apply L; auto with er|intro; apply errs_ret]|].
    destruct (is_char c "r"); [apply errs_bind; [apply L; auto with er|intro; apply errs_ret]|].
    destruct (is_char c "s"); [apply errs_bind; [apply L; auto with er|intro; apply errs_ret]|].
    apply Hoth.
  - destruct (showing_autosuggestion s); [|apply Hoth].
    apply errs_bind.
    + intro y. destruct (cursor_is_at_end_of_line s); exact I.
    + intros [|]; [|apply Hoth]. apply errs_bind; [apply L; auto with er|intro; apply errs_ret].
Qed.

Lemma ctrl_c : forall {K} (core : env -> key -> MK K unit) E x,
  match handle_key core E (KCtrl (ch "c")) x with
  | ORet _ _ => False
  | OErr e _ => e = EInterrupted \/ ttyerr E e
  | _ => True
  end.
Proof.
  intros K core E [x s]. unfold handle_key, bind at 1 2. cbn [gete].
  destruct (cur_buf s) as [b|p]; [|exact I]. change (is_char (ch "c") "h") with false. cbv beta iota zeta.
  change (is_char (ch "c") "c") with true. cbv iota. unfold bind, lift, fail.
  pose proof (er_newline E s) as H. cbv beta iota. destruct (handle_newline E s); auto.
Qed.

Lemma ctrl_d_empty : forall {K} (core : env -> key -> MK K unit) E x s b,
  cur_buf s = Val b -> data b = [] ->
  match handle_key core E (KCtrl (ch "d")) (x, s) with
  | ORet _ _ => False
  | OErr e _ => e = EUnexpectedEof \/ ttyerr E e
  | _ => True
  end.
Proof.
  intros K core E x s b Hb Hd. unfold handle_key, bind at 1 2. cbn [gete].
  rewrite Hb. unfold buf_is_empty. rewrite Hd.
  change (is_char (ch "d") "h") with false. cbv beta iota zeta. change (is_char (ch "d") "c") with false. cbv beta iota zeta.
  change (is_char (ch "d") "d") with true. cbn [andb negb nonempty]. cbv beta iota. unfold bind, lift, fail.
  pose proof (er_newline E s) as H. cbv beta iota. destruct (handle_newline E s); auto.
Qed.

(** Ctrl-D on a line with text does not finish the session. *)
Lemma ctrl_d_text : forall {K} (core : env -> key -> MK K unit) E x s b d y,
  cur_buf s = Val b -> data b <> [] ->
  handle_key core E (KCtrl (ch "d")) (x, s) = ORet d y -> d = false.
Proof.
  intros K core E x s b d y Hb Hd. unfold handle_key, bind at 1 2. cbn [gete].
  rewrite Hb. unfold buf_is_empty. destruct (data b) as [|c0 t0]; [congruence|].
  change (is_char (ch "d") "h") with false. cbv beta iota zeta. change (is_char (ch "d") "c") with false. cbv beta iota zeta.
  change (is_char (ch "d") "d") with true. change (is_char (ch "d") "f") with false. cbv beta iota zeta.
  change (is_char (ch "d") "r") with false. change (is_char (ch "d") "s") with false. cbv beta iota zeta.
  cbn [andb negb nonempty]. cbv beta iota. unfold bind, mod_ed, ret, fail.
  destruct (core E _ (x, s)) as [u [z s2]| | |]; try discriminate.
  destruct (e_wok E); [|discriminate]. intro H. injection H as H _. auto.
Qed.
