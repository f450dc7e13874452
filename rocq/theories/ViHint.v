(** No key of the Vi key map changes the list of completions on offer. *)
From Verif Require Import Base Utf8 BufferModel UtilModel HistoryModel EditorState EditorModel
  KeymapModel ViModel MonadLemmas EditorLemmas.

Local Open Scope monad_scope.

Definition hk (s s' : ed) : Prop := ed_hint s' = ed_hint s.
Lemma hk_refl : refl hk.
Proof. intro s. reflexivity. Qed.
Lemma hk_trans : trans hk.
Proof. intros a b c H1 H2. unfold hk in *. congruence. Qed.
Ltac hfr := unfold hk; edsimp; reflexivity.

Lemma freshen_hk : forall s, hk s (freshen_history s).
Proof.
  intro s. unfold freshen_history. destruct (h_share (ed_history s) && negb (ed_fresh s)); hfr.
Qed.
Lemma refreshed_hk : forall s, hk s (refreshed s).
Proof. intro s. unfold refreshed. destruct (is_search s && ed_changed s); hfr. Qed.
Lemma shown_hk : forall s g c tcl cb tty, hk s (shown (refreshed s) g c tcl cb tty).
Proof. intros. apply hk_trans with (refreshed s); [apply refreshed_hk|]. hfr. Qed.

Lemma hint_display : forall E, keeps hk (display E).
Proof.
  intros E s. pose proof (display_out E s) as H. destruct (display E s) as [a s'|e s'|p|]; auto.
  - destruct H as [g [b [tcl [cb [tty [_ [_ ->]]]]]]]. apply shown_hk.
  - destruct H as [_ [g [c [tcl [cb [_ [-> _]]]]]]]. apply shown_hk.
Qed.

Lemma hint_display_impl : forall E b, keeps hk (display_impl E b).
Proof.
  intros E b s. pose proof (display_impl_out E b s) as H. destruct (display_impl E b s) as [a s'|e s'|p|]; auto.
  - destruct H as [? [tcl [cb [tty [_ ->]]]]]. hfr.
  - destruct H as [_ [c [tcl [cb [-> _]]]]]. hfr.
Qed.

Lemma hint_get_cur : keeps hk get_cur.
Proof. intro s. unfold get_cur. destruct (cur_buf s); [apply hk_refl|exact I]. Qed.

Lemma hint_with_cur_mut : forall {A} (f : buffer -> res (A * buffer)), keeps hk (with_cur_mut f).
Proof.
  intros A f. apply (keeps_bind _ hk_trans).
  - intro s. unfold cur_prep. edsimp. destruct (ed_loc s); [|hfr].
    destruct (ed_hvalid s); [hfr|]. destruct (hist_get _ _); [|exact I].
    destruct (copy_buffer _ _); [hfr|exact I].
  - intros _ s. unfold cur_upd. destruct (ed_loc s); [destruct (f (ed_hist s)) as [[a b]|]|destruct (f (ed_new s)) as [[a b]|]];
      auto; hfr.
Qed.

Lemma hint_tty_write : forall E t, keeps hk (tty_write E t).
Proof. intros E t s. unfold tty_write. destruct (e_wok E); [hfr|apply hk_refl]. Qed.

#[local] Hint Resolve hint_display hint_display_impl hint_get_cur hint_with_cur_mut
  hint_tty_write freshen_hk hk_refl : hp.

Ltac hk_modify :=
  let s := fresh "s" in
  apply keeps_modify; intro s; cbv beta;
  first [ apply hk_refl | solve [hfr] | solve [auto with hp]
        | unfold clear_search; solve [hfr]
        | idtac ].

Ltac hp1 :=
  cbv beta zeta;
  match goal with
  | |- keeps _ (bind _ _) => apply (keeps_bind _ hk_trans); [|intro]
  | |- keeps _ (ret _) => apply (keeps_ret _ hk_refl)
  | |- keeps _ (fail _) => apply (keeps_fail _ hk_refl)
  | |- keeps _ (pan _) => apply keeps_pan
  | |- keeps _ get => apply (keeps_get _ hk_refl)
  | |- keeps _ (gets _) => apply (keeps_gets _ hk_refl)
  | |- keeps _ (liftr _) => apply (keeps_liftr _ hk_refl)
  | |- keeps _ (when _ _) => apply (keeps_when _ hk_refl)
  | |- keeps _ (modify _) => hk_modify
  | |- keeps _ (match ?x with _ => _ end) => destruct x
  | |- keeps _ _ => solve [auto with hp]
  end.
Ltac hp := repeat hp1.

Lemma hint_move_end : forall E, keeps hk (move_cursor_to_end_of_line E).
Proof. intro E. unfold move_cursor_to_end_of_line. hp. Qed.
Lemma hint_move_start : forall E, keeps hk (move_cursor_to_start_of_line E).
Proof. intro E. unfold move_cursor_to_start_of_line. hp. Qed.
Lemma hint_move_to : forall E n, keeps hk (move_cursor_to E n).
Proof. intros E n. unfold move_cursor_to. hp. Qed.
Lemma hint_move_left : forall E n, keeps hk (move_cursor_left E n).
Proof. intros E n. unfold move_cursor_left. hp. Qed.
Lemma hint_move_right : forall E n, keeps hk (move_cursor_right E n).
Proof. intros E n. unfold move_cursor_right. hp. Qed.
Lemma hint_insert : forall E t, keeps hk (insert_chars_after_cursor E t).
Proof. intros E t. unfold insert_chars_after_cursor. hp. Qed.
Lemma hint_insert1 : forall E c, keeps hk (insert_after_cursor E c).
Proof. intros E c. apply hint_insert. Qed.
Lemma hint_insert_str : forall E c, keeps hk (insert_str_after_cursor E c).
Proof. intros E c. apply hint_insert. Qed.
Lemma hint_del_before : forall E, keeps hk (delete_before_cursor E).
Proof. intros E. unfold delete_before_cursor. hp. Qed.
Lemma hint_del_after : forall E, keeps hk (delete_after_cursor E).
Proof. intros E. unfold delete_after_cursor. hp. Qed.
Lemma hint_del_all_before : forall E, keeps hk (delete_all_before_cursor E).
Proof. intros E. unfold delete_all_before_cursor. hp. Qed.
Lemma hint_del_all_after : forall E, keeps hk (delete_all_after_cursor E).
Proof. intros E. unfold delete_all_after_cursor. hp. Qed.
Lemma hint_del_until : forall E n, keeps hk (delete_until E n).
Proof. intros E n. unfold delete_until. hp. Qed.
Lemma hint_del_until_inc : forall E n, keeps hk (delete_until_inclusive E n).
Proof. intros E n. unfold delete_until_inclusive. hp. Qed.
Lemma hint_del_word : forall E b, keeps hk (delete_word_before_cursor E b).
Proof. intros E b. unfold delete_word_before_cursor. hp. Qed.
Lemma hint_clear : forall E, keeps hk (clear E).
Proof. intros E. unfold clear. hp. Qed.
#[local] Hint Resolve hint_move_end hint_move_start hint_move_to hint_move_left hint_move_right
  hint_insert hint_insert1 hint_insert_str hint_del_before hint_del_after hint_del_all_before
  hint_del_all_after hint_del_until hint_del_until_inc hint_del_word hint_clear : hp.

Lemma hint_undo_like : forall E f, keeps hk (undo_like E f).
Proof. intros E f. unfold undo_like. hp. Qed.
#[local] Hint Resolve hint_undo_like : hp.
Lemma hint_undo : forall E, keeps hk (ed_undo E).
Proof. intro E. unfold ed_undo. hp. Qed.
Lemma hint_redo : forall E, keeps hk (ed_redo E).
Proof. intro E. unfold ed_redo. hp. Qed.
Lemma hint_revert : forall E, keeps hk (ed_revert E).
Proof. intro E. unfold ed_revert. hp. Qed.

Lemma refresh_search_hk : forall b s, hk s (refresh_search b s).
Proof. intros b s. hfr. Qed.
Lemma search_step_hk : forall b s, hk s (search_step b s).
Proof.
  intros b s. unfold search_step. destruct (ed_subset s); [apply hk_refl|].
  destruct (ed_subloc s); hfr.
Qed.
Lemma hint_search : forall E b, keeps hk (search E b).
Proof.
  intros E b. unfold search. apply (keeps_bind _ hk_trans); [|intro; hp].
  apply keeps_modify. intro s. destruct (negb (is_search s)).
  - apply hk_trans with (freshen_history s); [apply freshen_hk|apply refresh_search_hk].
  - apply search_step_hk.
Qed.
#[local] Hint Resolve hint_undo hint_redo hint_revert hint_search : hp.

Lemma hint_move_up : forall E, keeps hk (move_up E).
Proof.
  intros E. unfold move_up. hp. apply hk_trans with (set_hvalid false s); [hfr|apply freshen_hk].
Qed.
Lemma hint_move_down : forall E, keeps hk (move_down E).
Proof. intros E. unfold move_down. hp. Qed.
Lemma hint_hist_start : forall E, keeps hk (move_to_start_of_history E).
Proof. intros E. unfold move_to_start_of_history. hp. Qed.
Lemma hint_hist_end : forall E, keeps hk (move_to_end_of_history E).
Proof. intros E. unfold move_to_end_of_history. hp. Qed.
Lemma hint_accept : forall E, keeps hk (accept_autosuggestion E).
Proof. intros E. unfold accept_autosuggestion. hp. Qed.
#[local] Hint Resolve hint_move_up hint_move_down hint_hist_start hint_hist_end hint_accept : hp.
(** * Key maps *)

Definition hkK {K} (x y : K * ed) : Prop := hk (snd x) (snd y).
Lemma hkK_refl : forall {K}, refl (@hkK K).
Proof. intros K s. apply hk_refl. Qed.
Lemma hkK_trans : forall {K}, trans (@hkK K).
Proof. intros K a b c. apply hk_trans. Qed.

Lemma hint_lift : forall {K A} (m : ME A), keeps hk m -> keeps (@hkK K) (lift m).
Proof.
  intros K A m H [k s]. unfold lift. specialize (H s). destruct (m s); exact H.
Qed.
Lemma hint_getk : forall {K}, keeps (@hkK K) getk.
Proof. intros K [k s]. apply hk_refl. Qed.
Lemma hint_modk : forall {K} (f : K -> K), keeps hkK (modk f).
Proof. intros K f [k s]. apply hk_refl. Qed.
Lemma hint_gete : forall {K}, keeps (@hkK K) gete.
Proof. intros K [k s]. apply hk_refl. Qed.
Lemma hint_mod_ed : forall {K} (f : ed -> ed), (forall s, hk s (f s)) -> keeps (@hkK K) (mod_ed f).
Proof. intros K f H [k s]. apply H. Qed.

Ltac hpk1 :=
  cbv beta zeta;
  match goal with
  | |- keeps _ (bind _ _) => apply (keeps_bind _ hkK_trans); [|intro]
  | |- keeps _ (ret _) => apply (keeps_ret _ hkK_refl)
  | |- keeps _ (fail _) => apply (keeps_fail _ hkK_refl)
  | |- keeps _ (pan _) => apply keeps_pan
  | |- keeps _ (liftr _) => apply (keeps_liftr _ hkK_refl)
  | |- keeps _ (when _ _) => apply (keeps_when _ hkK_refl)
  | |- keeps _ (lift _) => apply hint_lift; hp
  | |- keeps _ getk => apply hint_getk
  | |- keeps _ gete => apply hint_gete
  | |- keeps _ (modk _) => apply hint_modk
  | |- keeps _ (mod_ed _) => let s := fresh "s" in apply hint_mod_ed; intro s;
        first [unfold skip_completions_hint, set_noeol_by; solve [hfr] | idtac]
  | |- keeps _ (Nloop _ _) => apply (keeps_Nloop _ hkK_refl hkK_trans)
  | |- keeps _ (mfor _ _) => apply (keeps_mfor _ hkK_refl hkK_trans); intro
  | H : _ |- keeps _ _ => solve [apply H]
  | |- keeps _ (match ?x with _ => _ end) => destruct x
  | |- keeps _ _ => solve [auto with hp]
  end.
Ltac hpk := repeat hpk1.

Lemma set_vi_mode_hk : forall m s, hk s (set_vi_mode m s).
Proof. intros m s. unfold set_vi_mode. destruct (pr_vi (ed_prompt s)); hfr. Qed.

Lemma hint_set_editor_mode : forall E, keeps hkK (set_editor_mode E).
Proof. intro E. unfold set_editor_mode. hpk; apply set_vi_mode_hk. Qed.
#[local] Hint Resolve hint_set_editor_mode : hp.
Lemma hint_buf_mut : forall f, keeps hkK (buf_mut f).
Proof. intro f. unfold buf_mut. hpk. Qed.
#[local] Hint Resolve hint_buf_mut : hp.
Lemma hint_smpl : forall E m, keeps hkK (set_mode_preserve_last E m).
Proof. intros E m. unfold set_mode_preserve_last. hpk. Qed.
#[local] Hint Resolve hint_smpl : hp.
Lemma hint_set_mode : forall E m, keeps hkK (set_mode E m).
Proof. intros E m. unfold set_mode. hpk. Qed.
Lemma hint_pop_am : forall E m, keeps hkK (pop_mode_after_movement E m).
Proof. intros E m. unfold pop_mode_after_movement. hpk. Qed.
Lemma hint_pop_mode : forall E, keeps hkK (pop_mode E).
Proof.
  intros E. unfold pop_mode. hpk. intros [k s]. unfold lift.
  pose proof (hint_display E s) as H. destruct (display E s); [exact H|exact I|exact I|exact I].
Qed.
Lemma hint_abort : forall E, keeps hkK (normal_mode_abort E).
Proof. intros E. unfold normal_mode_abort. hpk. Qed.
Lemma hint_vi_common : forall E k, keeps hkK (vi_common E k).
Proof. intros E k. unfold vi_common. hpk. Qed.
Lemma hint_insert_reset : keeps hkK insert_reset.
Proof. unfold insert_reset. hpk. Qed.
Lemma hint_push_last : forall k, keeps hkK (push_last k).
Proof. intro k. unfold push_last. hpk. Qed.
Lemma hint_push_cur : forall k, keeps hkK (push_cur k).
Proof. intro k. unfold push_cur. hpk. Qed.
Lemma hint_mcr : keeps hkK mcr.
Proof. unfold mcr. hpk. Qed.
#[local] Hint Resolve hint_set_mode hint_pop_am hint_pop_mode hint_abort hint_vi_common
  hint_insert_reset hint_push_last hint_push_cur hint_mcr : hp.
Lemma hint_move_word : forall E a b n, keeps hk (vi_move_word E a b n).
Proof. intros. unfold vi_move_word. hp. Qed.
Lemma hint_move_word_end : forall E a b n, keeps hk (vi_move_word_end E a b n).
Proof. intros. unfold vi_move_word_end. hp. Qed.
#[local] Hint Resolve hint_move_word hint_move_word_end : hp.
Lemma hint_move_to_char : forall E k m, keeps hkK (vi_move_to_char E k m).
Proof. intros. unfold vi_move_to_char. hpk. Qed.
Lemma hint_tilde : forall E, keeps hkK (tilde_step E).
Proof. intros. unfold tilde_step. hpk. Qed.
#[local] Hint Resolve hint_move_to_char hint_tilde : hp.

Lemma hint_vi_repeat : forall rec, (forall k, keeps hkK (rec k)) -> keeps hkK (vi_repeat rec).
Proof. intros rec H. unfold vi_repeat. hpk. Qed.
Lemma hint_vi_insert : forall rec E k, (forall k, keeps hkK (rec k)) -> keeps hkK (vi_insert rec E k).
Proof. intros rec E k H. unfold vi_insert. hpk. Qed.
Lemma hint_vi_normal : forall rec E k, (forall k, keeps hkK (rec k)) -> keeps hkK (vi_normal rec E k).
Proof.
  intros rec E k H. pose proof (hint_vi_repeat rec H) as Hr. unfold vi_normal. hpk.
Qed.
Lemma hint_vi_replace : forall E k, keeps hkK (vi_replace E k).
Proof. intros. unfold vi_replace. hpk. Qed.
Lemma hint_vi_doc : forall rec E k, (forall k, keeps hkK (rec k)) -> keeps hkK (vi_delete_or_change rec E k).
Proof.
  intros rec E k H. pose proof (hint_vi_normal rec E k H) as Hn. unfold vi_delete_or_change. hpk.
Qed.
Lemma hint_finally : forall m f, keeps hkK m -> keeps hkK (finally m f).
Proof.
  intros m f H x. unfold finally. specialize (H x). destruct (m x) as [a [v s]|e [v s]| |]; exact H.
Qed.
#[local] Hint Resolve hint_finally : hp.
Lemma hint_vi_g : forall E k, keeps hkK (vi_g E k).
Proof. intros. unfold vi_g. hpk. Qed.
#[local] Hint Resolve hint_vi_replace hint_vi_g : hp.

Lemma hint_vi_core_fuel : forall f E k, keeps hkK (vi_core_fuel f E k).
Proof.
  induction f as [|f IH]; intros E k; [intro s; exact I|]. cbn [vi_core_fuel].
  pose proof (hint_vi_normal _ E k (IH E)). pose proof (hint_vi_insert _ E k (IH E)).
  pose proof (hint_vi_doc _ E k (IH E)). hpk.
Qed.
Lemma hint_vi_core : forall E k, keeps hkK (vi_core E k).
Proof. intros E k. unfold vi_core. pose proof hint_vi_core_fuel. hpk. Qed.
