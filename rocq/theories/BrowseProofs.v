(** The line being typed survives browsing the history (C24). *)
From Verif Require Import Base BufferModel HistoryModel EditorState EditorModel KeymapModel ViModel
  MonadLemmas EditorLemmas EditorSpec BrowseSpec ViEffects ViModes ViRepeat.
Local Open Scope monad_scope.

(** The text of the new line is the same. *)
Definition samen (s s' : ed) : Prop := data (ed_new s') = data (ed_new s).
Lemma samen_refl : refl samen. Proof. intro s. reflexivity. Qed.
Lemma samen_trans : trans samen. Proof. intros a b c. unfold samen. congruence. Qed.

(** On a recalled entry: it is, and the recalled entry stays selected. *)
Definition recalled (s : ed) : Prop := ed_loc s <> None /\ is_search s = false.
Definition held (s s' : ed) : Prop := recalled s -> recalled s' /\ samen s s'.
Lemma held_refl : refl held. Proof. intros s H. split; [exact H|apply samen_refl]. Qed.
Lemma held_trans : trans held.
Proof.
  intros a b c H1 H2 H. destruct (H1 H) as [H3 H4]. destruct (H2 H3) as [H5 H6].
  split; [exact H5|]. eapply samen_trans; eassumption.
Qed.

Lemma samen_display : forall E, keeps samen (display E).
Proof.
  intros E s. pose proof (display_out E s) as H. destruct (display E s) as [a s'|e s'|p|]; auto.
  - destruct H as [g [b [tcl [cb [tty [_ [_ ->]]]]]]]. unfold samen, shown, refreshed. edsimp.
    destruct (is_search s && ed_changed s); reflexivity.
  - destruct H as [_ [g [c [tcl [cb [_ [-> _]]]]]]]. unfold samen, shown, refreshed. edsimp.
    destruct (is_search s && ed_changed s); reflexivity.
Qed.
Lemma held_display : forall E, keeps held (display E).
Proof.
  intros E s. pose proof (samen_display E s) as N. pose proof (display_out E s) as H.
  destruct (display E s) as [a s'|e s'|p|]; auto; intros [R1 R2]; (split; [|exact N]).
  - destruct H as [g [b [tcl [cb [tty [_ [_ ->]]]]]]]. unfold recalled, shown, refreshed. rewrite R2.
    edsimp. split; assumption.
  - destruct H as [_ [g [c [tcl [cb [_ [-> _]]]]]]]. unfold recalled, shown, refreshed. rewrite R2.
    edsimp. split; assumption.
Qed.
Lemma held_display_impl : forall E b, keeps held (display_impl E b).
Proof.
  intros E b s. pose proof (display_impl_out E b s) as H. destruct (display_impl E b s) as [a s'|e s'|p|]; auto.
  - destruct H as [? [tcl [cb [tty [_ ->]]]]]. intro R. split; [exact R|reflexivity].
  - destruct H as [_ [c [tcl [cb [-> _]]]]]. intro R. split; [exact R|reflexivity].
Qed.
Lemma samen_get_cur : keeps samen get_cur.
Proof. intro s. unfold get_cur. destruct (cur_buf s); [apply samen_refl|exact I]. Qed.
Lemma held_get_cur : keeps held get_cur.
Proof. intro s. unfold get_cur. destruct (cur_buf s); [apply held_refl|exact I]. Qed.
Lemma held_with_cur_mut : forall {A} (f : buffer -> res (A * buffer)), keeps held (with_cur_mut f).
Proof.
  intros A f. apply (keeps_bind _ held_trans).
  - intro s. unfold cur_prep. edsimp. destruct (ed_loc s) eqn:L; [|intros [C _]; congruence].
    assert (Z : forall b h, held s (set_hvalid b (set_hist h (set_changed true s)))).
    { intros b h [R1 R2]. split; [split; assumption|reflexivity]. }
    destruct (ed_hvalid s) eqn:V; [intros [R1 R2]; split; [split; assumption|reflexivity]|].
    destruct (hist_get _ _); [|exact I]. destruct (copy_buffer _ _); [apply Z|exact I].
  - intros _ s. unfold cur_upd. destruct (ed_loc s) eqn:L.
    + destruct (f (ed_hist s)) as [[a b]|]; [|exact I]. intro R. split; [exact R|reflexivity].
    + destruct (f (ed_new s)) as [[a b]|]; [|exact I]. intros [R _]. congruence.
Qed.
Lemma samen_group : forall f, (forall b, data (f b) = data b) -> keeps samen (with_cur_mut (pure_op f)).
Proof.
  intros f Hf. apply (keeps_bind _ samen_trans).
  - intro s. unfold cur_prep. edsimp. destruct (ed_loc s); [|reflexivity].
    destruct (ed_hvalid s); [reflexivity|]. destruct (hist_get _ _); [|exact I].
    destruct (copy_buffer _ _); [reflexivity|exact I].
  - intros _ s. unfold cur_upd, pure_op. destruct (ed_loc s); [reflexivity|]. apply Hf.
Qed.
Lemma held_tty_write : forall E t, keeps held (tty_write E t).
Proof. intros E t s. unfold tty_write. destruct (e_wok E); intro R; (split; [exact R|reflexivity]). Qed.
Lemma samen_freshen : forall s, samen s (freshen_history s).
Proof. intro s. unfold freshen_history. destruct (_ && _); reflexivity. Qed.

Ltac hld := let R := fresh in intro R; split; [exact R|reflexivity].
Create HintDb brw.
#[export] Hint Resolve samen_display held_display held_display_impl samen_get_cur held_get_cur
  held_with_cur_mut held_tty_write : brw.

Ltac kb1 tr rf :=
  cbv beta zeta;
  match goal with
  | |- keeps _ (bind _ _) => apply (keeps_bind _ tr); [|intro]
  | |- keeps _ (ret _) => apply (keeps_ret _ rf)
  | |- keeps _ (fail _) => apply (keeps_fail _ rf)
  | |- keeps _ (pan _) => apply keeps_pan
  | |- keeps _ get => apply (keeps_get _ rf)
  | |- keeps _ (gets _) => apply (keeps_gets _ rf)
  | |- keeps _ (liftr _) => apply (keeps_liftr _ rf)
  | |- keeps _ (when _ _) => apply (keeps_when _ rf)
  | |- keeps _ (modify _) => let s := fresh "s" in apply keeps_modify; intro s; cbv beta;
      first [reflexivity | solve [hld] | idtac]
  | |- keeps _ (match ?x with _ => _ end) => destruct x
  | |- keeps _ _ => solve [auto with brw]
  end.
Ltac kbn := repeat kb1 samen_trans samen_refl.
Ltac kbh := repeat kb1 held_trans held_refl.

(** * Moving *)
Lemma n_move_end : forall E, keeps samen (move_cursor_to_end_of_line E).
Proof. intro E. unfold move_cursor_to_end_of_line. kbn. Qed.
Lemma n_move_start : forall E, keeps samen (move_cursor_to_start_of_line E).
Proof. intro E. unfold move_cursor_to_start_of_line. kbn. Qed.
Lemma n_move_to : forall E n, keeps samen (move_cursor_to E n).
Proof. intros E n. unfold move_cursor_to. kbn. Qed.
Lemma n_move_left : forall E n, keeps samen (move_cursor_left E n).
Proof. intros E n. unfold move_cursor_left. kbn. Qed.
Lemma n_move_right : forall E n, keeps samen (move_cursor_right E n).
Proof. intros E n. unfold move_cursor_right. kbn. Qed.
#[export] Hint Resolve n_move_end n_move_start n_move_to n_move_left n_move_right : brw.
Lemma n_search : forall E b, keeps samen (search E b).
Proof.
  intros E b. unfold search. apply (keeps_bind _ samen_trans); [|intro; kbn].
  apply keeps_modify. intro s. destruct (negb (is_search s)).
  - apply samen_trans with (freshen_history s); [apply samen_freshen|reflexivity].
  - unfold search_step. destruct (ed_subset s); [reflexivity|]. destruct (ed_subloc s); reflexivity.
Qed.
#[export] Hint Resolve n_search : brw.
Lemma n_move_up : forall E, keeps samen (move_up E).
Proof.
  intros E. unfold move_up. kbn. apply samen_trans with (set_hvalid false s); [reflexivity|apply samen_freshen].
Qed.
Lemma n_move_down : forall E, keeps samen (move_down E).
Proof. intros E. unfold move_down. kbn. Qed.
Lemma n_hist_start : forall E, keeps samen (move_to_start_of_history E).
Proof. intros E. unfold move_to_start_of_history. kbn. Qed.
Lemma n_hist_end : forall E, keeps samen (move_to_end_of_history E).
Proof. intros E. unfold move_to_end_of_history. kbn. Qed.
Lemma n_move_word : forall E b, keeps samen (emacs_move_word E b).
Proof. intros E b. unfold emacs_move_word. kbn. Qed.
Lemma n_vi_word : forall E a b c, keeps samen (vi_move_word E a b c).
Proof. intros. unfold vi_move_word. kbn. Qed.
Lemma n_vi_word_end : forall E a b c, keeps samen (vi_move_word_end E a b c).
Proof. intros. unfold vi_move_word_end. kbn. Qed.
#[export] Hint Resolve n_move_up n_move_down n_hist_start n_hist_end n_move_word n_vi_word n_vi_word_end : brw.

(** * Editing a recalled entry *)
Lemma h_move_end : forall E, keeps held (move_cursor_to_end_of_line E).
Proof. intro E. unfold move_cursor_to_end_of_line. kbh. Qed.
Lemma h_move_start : forall E, keeps held (move_cursor_to_start_of_line E).
Proof. intro E. unfold move_cursor_to_start_of_line. kbh. Qed.
Lemma h_move_to : forall E n, keeps held (move_cursor_to E n).
Proof. intros E n. unfold move_cursor_to. kbh. Qed.
Lemma h_move_left : forall E n, keeps held (move_cursor_left E n).
Proof. intros E n. unfold move_cursor_left. kbh. Qed.
Lemma h_move_right : forall E n, keeps held (move_cursor_right E n).
Proof. intros E n. unfold move_cursor_right. kbh. Qed.
#[export] Hint Resolve h_move_end h_move_start h_move_to h_move_left h_move_right : brw.
Lemma h_move_word : forall E b, keeps held (emacs_move_word E b).
Proof. intros E b. unfold emacs_move_word. kbh. Qed.
Lemma h_vi_word : forall E a b c, keeps held (vi_move_word E a b c).
Proof. intros. unfold vi_move_word. kbh. Qed.
Lemma h_vi_word_end : forall E a b c, keeps held (vi_move_word_end E a b c).
Proof. intros. unfold vi_move_word_end. kbh. Qed.
Lemma h_insert : forall E t, keeps held (insert_chars_after_cursor E t).
Proof. intros E t. unfold insert_chars_after_cursor. kbh. Qed.
Lemma h_insert1 : forall E c, keeps held (insert_after_cursor E c).
Proof. intros E c. apply h_insert. Qed.
Lemma h_insert_str : forall E c, keeps held (insert_str_after_cursor E c).
Proof. intros E c. apply h_insert. Qed.
Lemma h_del_before : forall E, keeps held (delete_before_cursor E).
Proof. intros E. unfold delete_before_cursor. kbh. Qed.
Lemma h_del_after : forall E, keeps held (delete_after_cursor E).
Proof. intros E. unfold delete_after_cursor. kbh. Qed.
Lemma h_del_all_before : forall E, keeps held (delete_all_before_cursor E).
Proof. intros E. unfold delete_all_before_cursor. kbh. Qed.
Lemma h_del_all_after : forall E, keeps held (delete_all_after_cursor E).
Proof. intros E. unfold delete_all_after_cursor. kbh. Qed.
Lemma h_del_until : forall E n, keeps held (delete_until E n).
Proof. intros E n. unfold delete_until. kbh. Qed.
Lemma h_del_until_inc : forall E n, keeps held (delete_until_inclusive E n).
Proof. intros E n. unfold delete_until_inclusive. kbh. Qed.
Lemma h_del_word : forall E b, keeps held (delete_word_before_cursor E b).
Proof. intros E b. unfold delete_word_before_cursor. kbh. Qed.
Lemma h_cleared : forall s, held s (clear_search s).
Proof. intros s [R1 R2]. split; [split; [exact R1|reflexivity]|reflexivity]. Qed.
Lemma h_clear : forall E, keeps held (clear E).
Proof.
  intros E. unfold clear. kbh.
  apply held_trans with (set_tcl 1 (set_cbuf (ed_cbuf s ++ [TClearAll; TGoto11]) s)); [hld|apply h_cleared].
Qed.
#[export] Hint Resolve h_move_word h_vi_word h_vi_word_end h_insert h_insert1 h_insert_str h_del_before
  h_del_after h_del_all_before h_del_all_after h_del_until h_del_until_inc h_del_word h_clear : brw.
Lemma h_undo_like : forall E f, keeps held (undo_like E f).
Proof. intros E f. unfold undo_like. kbh. Qed.
#[export] Hint Resolve h_undo_like : brw.
Lemma h_undo : forall E, keeps held (ed_undo E).
Proof. intro E. unfold ed_undo. kbh. Qed.
Lemma h_redo : forall E, keeps held (ed_redo E).
Proof. intro E. unfold ed_redo. kbh. Qed.
Lemma h_revert : forall E, keeps held (ed_revert E).
Proof. intro E. unfold ed_revert. kbh. Qed.
Lemma h_accept : forall E, keeps held (accept_autosuggestion E).
Proof. intros E. unfold accept_autosuggestion. kbh. apply h_cleared. Qed.
#[export] Hint Resolve h_undo h_redo h_revert h_accept : brw.
Lemma h_complete : forall E, keeps held (complete E).
Proof. intros E. unfold complete. kbh. Qed.
Lemma h_newline : forall E, keeps held (handle_newline E).
Proof. intros E. unfold handle_newline. kbh; apply h_cleared. Qed.
#[export] Hint Resolve h_complete h_newline : brw.

(** * Key maps *)
Section Lift.
  Context {K : Type} (R : ed -> ed -> Prop) (Rr : refl R) (Rt : trans R).
  Definition on_ed (x y : K * ed) : Prop := R (snd x) (snd y).
  Lemma on_ed_refl : refl on_ed. Proof using Rr. intro x. apply Rr. Qed.
  Lemma on_ed_trans : trans on_ed. Proof using Rt. intros x y z. apply Rt. Qed.
  Lemma on_lift : forall {A} (m : ME A), keeps R m -> keeps on_ed (lift m).
  Proof using. intros A m H [k s]. unfold lift. specialize (H s). destruct (m s); exact H. Qed.
  Lemma on_getk : keeps on_ed getk. Proof using Rr. intros [k s]. apply Rr. Qed.
  Lemma on_gete : keeps on_ed gete. Proof using Rr. intros [k s]. apply Rr. Qed.
  Lemma on_modk : forall f, keeps on_ed (modk f). Proof using Rr. intros f [k s]. apply Rr. Qed.
  Lemma on_mod_ed : forall f, (forall s, R s (f s)) -> keeps on_ed (mod_ed f).
  Proof using. intros f H [k s]. apply H. Qed.
End Lift.

Ltac kk1 tr rf :=
  cbv beta zeta;
  match goal with
  | |- keeps _ (bind _ _) => apply (keeps_bind _ (on_ed_trans _ tr)); [|intro]
  | |- keeps _ (ret _) => apply (keeps_ret _ (on_ed_refl _ rf))
  | |- keeps _ (fail _) => apply (keeps_fail _ (on_ed_refl _ rf))
  | |- keeps _ (pan _) => apply keeps_pan
  | |- keeps _ (liftr _) => apply (keeps_liftr _ (on_ed_refl _ rf))
  | |- keeps _ (when _ _) => apply (keeps_when _ (on_ed_refl _ rf))
  | |- keeps _ (lift _) => apply on_lift; repeat kb1 tr rf
  | |- keeps _ getk => apply (on_getk _ rf)
  | |- keeps _ gete => apply (on_gete _ rf)
  | |- keeps _ (modk _) => apply (on_modk _ rf)
  | |- keeps _ (mod_ed _) => let s := fresh "s" in apply on_mod_ed; intro s; cbv beta;
        first [reflexivity | solve [hld] | idtac]
  | |- keeps _ (Nloop _ _) => apply (keeps_Nloop _ (on_ed_refl _ rf) (on_ed_trans _ tr))
  | |- keeps _ (mfor _ _) => apply (keeps_mfor _ (on_ed_refl _ rf) (on_ed_trans _ tr)); intro
  | H : _ |- keeps _ _ => solve [apply H]
  | |- keeps _ (match ?x with _ => _ end) => destruct x
  | |- keeps _ _ => solve [auto with brw]
  end.
Ltac kkn := repeat kk1 samen_trans samen_refl.
Ltac kkh := repeat kk1 held_trans held_refl.
Notation sameK := (on_ed samen) (only parsing).
Notation heldK := (on_ed held) (only parsing).

(** [handle_key] around a core that keeps the new line, for keys it does not
    treat itself. *)
Definition passed (k : key) (s : ed) : Prop :=
  match k with
  | KChar c => c <> c_tab /\ c <> c_nl
  | KRight => ed_sugg s = None
  | KCtrl c => c <> ch "c" /\ c <> ch "d" /\ c <> ch "r" /\ c <> ch "s" /\ c <> ch "h" /\
               (c = ch "f" -> ed_sugg s = None)
  | _ => True
  end.
Definition after {S A} (R : S -> S -> Prop) (m : M S A) (s : S) : Prop :=
  match m s with ORet _ s' => R s s' | OErr _ s' => R s s' | _ => True end.
Lemma after_bind : forall {S A B} (R : S -> S -> Prop) (m : M S A) (k : A -> M S B) s,
  trans R -> after R m s -> (forall a, keeps R (k a)) -> after R (bind m k) s.
Proof.
  intros S A B R m k s T H Hk. unfold after, bind in *. destruct (m s) as [a s'| | |]; auto.
  specialize (Hk a s'). destruct (k a s'); eauto.
Qed.

Lemma is_char_ne : forall c x, c <> ch x -> is_char c x = false.
Proof. intros c x H. unfold is_char. apply N.eqb_neq. exact H. Qed.

Lemma samen_handle : forall {K} (core : env -> key -> MK K unit) E k x,
  passed k (snd x) -> after sameK (core E k) x -> after sameK (handle_key core E k) x.
Proof.
  intros K core E k [kk s] P H. unfold after. unfold handle_key, bind at 1. cbn [gete].
  unfold bind at 1. destruct (cur_buf s) as [b|]; [|exact I]. cbv beta iota zeta.
  assert (O : after sameK (core E k ;;; mod_ed skip_completions_hint ;;; ret false) (kk, s)).
  { apply after_bind; [apply (on_ed_trans _ samen_trans)|exact H|]. intro. kkn. }
  assert (F : forall m : MK K bool, after sameK m (kk, s) ->
    after sameK (done <- m ;; if e_wok E then ret done else fail EOther) (kk, s)).
  { intros m Hm. apply after_bind; [apply (on_ed_trans _ samen_trans)|exact Hm|]. intro. kkn. }
  destruct k; cbn [passed snd] in P; try (apply F; exact O).
  - destruct P as [P1 P2]. apply F. apply N.eqb_neq in P1, P2. rewrite P1, P2. exact O.
  - destruct P as [P1 [P2 [P3 [P4 [P5 P6]]]]]. rewrite (is_char_ne _ _ P5). cbv beta iota.
    rewrite (is_char_ne _ _ P1), (is_char_ne _ _ P2), (is_char_ne _ _ P3), (is_char_ne _ _ P4). cbn [andb].
    destruct (is_char c "f" && showing_autosuggestion s) eqn:Q; [|apply F; exact O].
    apply andb_prop in Q as [Q1 Q2]. unfold is_char in Q1. apply N.eqb_eq in Q1.
    unfold showing_autosuggestion in Q2. rewrite (P6 Q1) in Q2. discriminate.
  - apply F. unfold showing_autosuggestion. rewrite P. exact O.
Qed.

(** For any key pressed on a recalled entry it suffices that the core keeps the
    new line then. *)
Lemma held_handle : forall {K} (core : env -> key -> MK K unit) E k x,
  recalled (snd x) ->
  after sameK (core E (match k with KCtrl c => if is_char c "h" then KBackspace else k | _ => k end)) x ->
  after sameK (handle_key core E k) x.
Proof.
  intros K core E k [kk s] Rc H. unfold after. unfold handle_key, bind at 1. cbn [gete].
  unfold bind at 1. destruct (cur_buf s) as [b|]; [|exact I]. cbv beta iota zeta.
  set (k0 := match k with KCtrl c => if is_char c "h" then KBackspace else k | _ => k end) in *.
  assert (O : after sameK (core E k0 ;;; mod_ed skip_completions_hint ;;; ret false) (kk, s)).
  { apply after_bind; [apply (on_ed_trans _ samen_trans)|exact H|]. intro. kkn. }
  assert (F : forall m : MK K bool, after sameK m (kk, s) ->
    after sameK (done <- m ;; if e_wok E then ret done else fail EOther) (kk, s)).
  { intros m Hm. apply after_bind; [apply (on_ed_trans _ samen_trans)|exact Hm|]. intro. kkn. }
  assert (G : forall A (m : MK K A), keeps heldK m -> after sameK m (kk, s)).
  { intros A m Hm. specialize (Hm (kk, s)). unfold after. destruct (m (kk, s)); auto; exact (proj2 (Hm Rc)). }
  assert (G' : forall A (m : MK K A), keeps sameK m -> after sameK m (kk, s)).
  { intros A m Hm. exact (Hm (kk, s)). }
  apply F. clear F.
  destruct k0; try exact O.
  - repeat match goal with |- context [if ?b then _ else _] => destruct b end; try exact O; apply G; kkh.
  - repeat match goal with |- context [if ?b then _ else _] => destruct b end; try exact O;
      first [solve [apply G; kkh] | solve [apply G'; kkn]].
  - destruct (showing_autosuggestion s); [|exact O].
    unfold after, bind at 1. destruct (cursor_is_at_end_of_line s) as [[|]|]; [|exact O|exact I].
    apply G. kkh.
Qed.

(** ** Emacs *)
Lemma h_last_arg : forall E, keeps heldK (handle_last_arg_fetch E).
Proof. intro E. unfold handle_last_arg_fetch. kkh. Qed.
Definition nav_ctrl (c : char) : bool := is_char c "p" || is_char c "n".
Definition nav_alt (c : char) : bool := is_char c "<" || is_char c ">".
Lemma h_emacs_ctrl : forall E c, nav_ctrl c = false -> keeps held (emacs_ctrl E c).
Proof.
  intros E c H. unfold nav_ctrl in H. apply orb_false_elim in H as [H1 H2].
  unfold emacs_ctrl. rewrite H1, H2. kbh.
Qed.
Lemma h_emacs_core : forall E k,
  match k with
  | KUp | KDown => False
  | KCtrl c => nav_ctrl c = false
  | KAlt c => nav_alt c = false
  | _ => True
  end -> keeps heldK (emacs_core E k).
Proof.
  intros E k H. unfold emacs_core. destruct k; try contradiction; kkh.
  - unfold nav_alt in H. apply orb_false_elim in H as [H1 H2]. unfold emacs_alt. rewrite H1, H2.
    pose proof h_last_arg. kkh.
  - apply h_emacs_ctrl. exact H.
Qed.
Lemma emacs_edit : forall E k x, recalled (snd x) -> after sameK (emacs_core E k) x.
Proof.
  intros E k x Rc.
  assert (G : keeps heldK (emacs_core E k) -> after sameK (emacs_core E k) x).
  { intro Hm. specialize (Hm x). unfold after. destruct (emacs_core E k x); auto; exact (proj2 (Hm Rc)). }
  assert (G' : keeps sameK (emacs_core E k) -> after sameK (emacs_core E k) x).
  { intro Hm. exact (Hm x). }
  destruct k; try (apply G; apply h_emacs_core; exact I).
  - destruct (nav_alt c) eqn:N; [|apply G, h_emacs_core; exact N].
    apply G'. unfold emacs_core, emacs_alt. unfold nav_alt in N.
    apply (keeps_bind _ (on_ed_trans _ samen_trans)); [kkn|intro].
    destruct (is_char c "<"); [kkn|]. destruct (is_char c ">"); [kkn|]. discriminate.
  - destruct (nav_ctrl c) eqn:N; [|apply G, h_emacs_core; exact N].
    apply G'. unfold emacs_core, emacs_ctrl. unfold nav_ctrl in N.
    apply (keeps_bind _ (on_ed_trans _ samen_trans)); [kkn|intro].
    apply orb_prop in N as [N|N]; unfold is_char in N; apply N.eqb_eq in N; subst c; cbn; kkn.
  - apply G'. unfold emacs_core. kkn.
  - apply G'. unfold emacs_core. kkn.
Qed.
Lemma emacs_move : forall E k, (emacs_moves emacs_new k \/ k = KRight \/ k = KCtrl (ch "f")) ->
  keeps sameK (emacs_core E k).
Proof.
  intros E k H. unfold emacs_moves in H. cbn [app map str In] in H.
  assert (L : In k (([KUp; KDown; KLeft; KHome; KEnd] ++ map KCtrl (str "pnabe") ++ map KAlt (str "<>bf"))
     ++ [KRight; KCtrl (ch "f")])).
  { apply in_or_app. destruct H as [H|[H|H]]; [left; exact H|right; left; auto|right; right; left; auto]. }
  clear H. revert k L. apply Forall_forall. cbn.
  repeat (apply Forall_cons; [unfold emacs_core, emacs_ctrl, emacs_alt; cbn; kkn|]). apply Forall_nil.
Qed.

Lemma emacs_browse_new : forall x y, emacs_browse x y -> data (ed_new (snd y)) = data (ed_new (snd x)).
Proof.
  intros x y H. induction H as [x|E k x y z Hk Hh _ IH]; [reflexivity|].
  rewrite IH. clear IH.
  assert (A : after sameK (handle_key emacs_core E k) x).
  { destruct Hk as [Hk|[[_ [Hk Hs]]|[R1 [R2 _]]]].
    - apply samen_handle; [|apply emacs_move; left; exact Hk].
      revert k Hk Hh. unfold emacs_moves. intros k Hk _. revert k Hk. apply Forall_forall. cbn.
      repeat (apply Forall_cons; [cbn; repeat split; discriminate|]). apply Forall_nil.
    - apply samen_handle; [|apply emacs_move; right; exact Hk].
      destruct Hk as [-> | ->]; cbn; [exact Hs|]. repeat split; try discriminate. auto.
    - apply held_handle; [split; assumption|]. apply emacs_edit. split; assumption. }
  unfold after in A. rewrite Hh in A. exact A.
Qed.

(** ** Vi *)
Lemma h_set_vi_mode : forall m s, held s (set_vi_mode m s).
Proof. intros m s. unfold set_vi_mode. destruct (pr_vi (ed_prompt s)); [hld|apply held_refl]. Qed.
Lemma n_set_vi_mode : forall m s, samen s (set_vi_mode m s).
Proof. intros m s. unfold set_vi_mode. destruct (pr_vi (ed_prompt s)); reflexivity. Qed.
Lemma h_editor_mode : forall E, keeps heldK (set_editor_mode E).
Proof. intro E. unfold set_editor_mode. kkh; apply h_set_vi_mode. Qed.
Lemma n_editor_mode : forall E, keeps sameK (set_editor_mode E).
Proof. intro E. unfold set_editor_mode. kkn; apply n_set_vi_mode. Qed.
Lemma h_buf_mut : forall f, keeps heldK (buf_mut f).
Proof. intro f. unfold buf_mut. kkh. Qed.
#[export] Hint Resolve h_editor_mode n_editor_mode h_buf_mut : brw.
Lemma h_mode_preserve : forall E m, keeps heldK (set_mode_preserve_last E m).
Proof. intros E m. unfold set_mode_preserve_last. kkh. Qed.
#[export] Hint Resolve h_mode_preserve : brw.
Lemma h_set_mode : forall E m, keeps heldK (set_mode E m).
Proof. intros E m. unfold set_mode. kkh. Qed.
Lemma h_pop_movement : forall E mt, keeps heldK (pop_mode_after_movement E mt).
Proof. intros E mt. unfold pop_mode_after_movement. kkh. Qed.
Lemma h_pop_mode : forall E, keeps heldK (pop_mode E).
Proof.
  intro E. unfold pop_mode. kkh; intros [vv ss];
  pose proof (on_lift (K:=vi) held (display E) (held_display E) (vv, ss)) as D;
  destruct (lift (display E) (vv, ss)); auto.
Qed.
Lemma h_abort : forall E, keeps heldK (normal_mode_abort E).
Proof. intro E. unfold normal_mode_abort. kkh. Qed.
Lemma h_mcr : keeps heldK mcr.
Proof. unfold mcr. kkh. Qed.
Lemma n_mcr : keeps sameK mcr.
Proof. unfold mcr. kkn. Qed.
Lemma h_insert_reset : keeps heldK insert_reset.
Proof. unfold insert_reset. kkh. Qed.
#[export] Hint Resolve h_set_mode h_pop_movement h_pop_mode h_abort h_mcr n_mcr h_insert_reset : brw.
Lemma h_common : forall E k, k <> KUp -> k <> KDown -> keeps heldK (vi_common E k).
Proof. intros E k H1 H2. unfold vi_common. destruct k; try congruence; kkh. Qed.
Lemma h_to_char : forall E k m, keeps heldK (vi_move_to_char E k m).
Proof. intros E k m. unfold vi_move_to_char, push_cur. kkh. Qed.
Lemma h_tilde : forall E, keeps heldK (tilde_step E).
Proof. intro E. unfold tilde_step. kkh. Qed.
Lemma h_replace : forall E k, keeps heldK (vi_replace E k).
Proof. intros E k. unfold vi_replace. kkh. Qed.
Lemma h_finally : forall m f, keeps heldK m -> keeps heldK (finally m f).
Proof. intros m f H [v s]. unfold finally. specialize (H (v, s)). destruct (m (v, s)) as [a [v' s']|e [v' s']| |]; exact H. Qed.
Lemma h_g : forall E k, keeps heldK (vi_g E k).
Proof. intros E k. unfold vi_g, push_cur. kkh; apply h_finally; kkh. Qed.
#[export] Hint Resolve h_common h_to_char h_tilde h_replace h_g : brw.

Definition vi_nav (k : key) : bool :=
  match k with KUp | KDown => true | KChar c => is_char c "j" || is_char c "k" | _ => false end.
Lemma h_normal : forall rec E k, vi_nav k = false -> k <> kch "." -> keeps heldK (vi_normal rec E k).
Proof.
  intros rec E k H Hd. unfold vi_normal, push_cur.
  assert (C : forall k', vi_nav k' = false -> keeps heldK (vi_common E k')).
  { intros k' H'. apply h_common; intros ->; discriminate. }
  destruct k as [c| | | | | | | | | | | | |]; cbn [vi_nav] in H; try discriminate;
    [|kkh; apply C; reflexivity..].
  assert (D : is_char c "." = false).
  { unfold is_char. apply N.eqb_neq. intro Q. apply Hd. rewrite Q. reflexivity. }
  apply orb_false_elim in H as [H1 H2]. rewrite D, H1, H2. kkh; apply C; cbn; rewrite H1, H2; reflexivity.
Qed.
Lemma h_delete : forall rec E k, keeps heldK (vi_delete_or_change rec E k).
Proof.
  intros rec E k. unfold vi_delete_or_change, push_cur.
  assert (G : is_movement_key k = true \/ kis k "0" = true \/
     (match k with KChar c => ((48 <=? c) && (c <=? 57))%N | _ => false end) = true ->
     keeps heldK (vi_normal rec E k)).
  { intro M. apply h_normal.
    - destruct k; try reflexivity; cbn in M; try (destruct M as [M|[M|M]]; discriminate).
      cbn [vi_nav]. destruct (is_char c "j") eqn:J1; [unfold is_char in J1; apply N.eqb_eq in J1; subst c; destruct M as [M|[M|M]]; discriminate|].
      destruct (is_char c "k") eqn:J2; [unfold is_char in J2; apply N.eqb_eq in J2; subst c; destruct M as [M|[M|M]]; discriminate|].
      reflexivity.
    - intros ->. destruct M as [M|[M|M]]; discriminate. }
  apply (keeps_bind _ (on_ed_trans _ held_trans)); [kkh|]. intro v.
  destruct (is_movement_key k || (kis k "0" && (v_count v =? 0)%N)) eqn:B.
  { assert (G1 : keeps heldK (vi_normal rec E k)).
    { apply G. apply orb_prop in B as [B|B]; [left; exact B|right; left]. apply andb_prop in B as [B _]. exact B. }
    clear G B. kkh. }
  destruct (match k with KChar c => ((48 <=? c) && (c <=? 57))%N | _ => false end) eqn:B2.
  { apply G. auto. }
  clear G B B2. kkh.
Qed.

(** Insert mode; the counted repetition replays keys that were typed. *)
Definition insK (x y : vi * ed) : Prop :=
  vmode_of (fst x) = MInsert /\ Forall plain (v_last (fst x)) /\ recalled (snd x) ->
  (vmode_of (fst y) = MInsert /\ Forall plain (v_last (fst y)) /\ recalled (snd y)) /\ samen (snd x) (snd y).
Lemma insK_refl : refl insK. Proof. intros x H. split; [exact H|reflexivity]. Qed.
Lemma insK_trans : trans insK.
Proof.
  intros x y z H1 H2 H. destruct (H1 H) as [H3 H4]. destruct (H2 H3) as [H5 H6]. split; [exact H5|].
  eapply samen_trans; eassumption.
Qed.
Lemma insK_lift : forall {A} (m : ME A), keeps held m -> keeps insK (lift m).
Proof.
  intros A m H [v s]. unfold lift. specialize (H s). destruct (m s) as [a s'|e s'| |]; auto;
    intros [H1 [H2 H3]]; destruct (H H3); (split; [repeat split; try assumption; apply H0|assumption]).
Qed.
Lemma insK_modk : forall f, (forall v, v_stack (f v) = v_stack v) ->
  (forall v, Forall plain (v_last v) -> Forall plain (v_last (f v))) -> keeps insK (modk f).
Proof.
  intros f H1 H2 [v s]. intros [H3 [H4 H5]]. split; [|reflexivity]. unfold vmode_of in *. cbn [fst] in *. rewrite H1. auto.
Qed.
Lemma insK_reset : keeps insK insert_reset.
Proof.
  unfold insert_reset. apply (keeps_bind _ insK_trans); [intros [v s]; apply insK_refl|intro v].
  apply (keeps_when _ insK_refl). unfold buf_mut.
  apply (keeps_bind _ insK_trans); [apply insK_lift; auto with brw|intros _].
  apply (keeps_bind _ insK_trans); [apply insK_lift; auto with brw|intros _].
  apply insK_modk; intros; [reflexivity|constructor].
Qed.
Lemma insK_push : forall k, plain k -> keeps insK (push_last k).
Proof.
  intros k H. apply insK_modk; intros; [reflexivity|]. cbn. apply Forall_app. split; [assumption|repeat constructor; assumption].
Qed.
Lemma insK_typed : forall f E k, plain k -> keeps insK (vi_core_fuel f E k).
Proof.
  intros [|f] E k Hk; [intro; exact I|]. cbn [vi_core_fuel]. intros [v s]. unfold bind at 1. cbn [getk].
  destruct (vmode_of v) eqn:M;
    try (match goal with |- match ?o with _ => _ end => destruct o; auto; intros [C _]; cbn [fst] in C; rewrite M in C; discriminate end).
  assert (G : keeps insK (vi_insert (vi_core_fuel f E) E k)); [|exact (G (v, s))].
  unfold vi_insert. cbv zeta.
  assert (L : forall m : ME unit, keeps held m -> keeps insK (lift m)) by (intros; apply insK_lift; assumption).
  destruct k; cbn [plain] in Hk; try contradiction; unfold vi_common;
    repeat match goal with
    | |- keeps _ (bind _ _) => apply (keeps_bind _ insK_trans); [|intro]
    | |- keeps _ insert_reset => exact insK_reset
    | |- keeps _ (push_last _) => apply insK_push; exact I
    | |- keeps _ (lift _) => apply insK_lift; auto with brw
    | |- keeps _ (modk _) => apply insK_modk; intros; [reflexivity|assumption]
    end.
Qed.
Lemma insK_mfor : forall f E l, Forall plain l -> keeps insK (mfor l (vi_core_fuel f E)).
Proof.
  intros f E l H. induction H; cbn [mfor]; [apply (keeps_ret _ insK_refl)|].
  apply (keeps_bind _ insK_trans); [apply insK_typed; assumption|intros _; assumption].
Qed.

Lemma esc_samen : forall f E v s, vmode_of v = MInsert -> Forall plain (v_last v) -> recalled s ->
  after sameK (vi_insert (vi_core_fuel f E) E KEsc) (v, s).
Proof.
  intros f E v s M P Rc. unfold vi_insert. cbv zeta.
  assert (Loop : forall n, keeps insK (Nloop n
        (v0 <- getk ;; modk (vset_last []) ;;; mfor (v_last v0) (vi_core_fuel f E) ;;; ret true))).
  { intro n. apply (keeps_Nloop _ insK_refl insK_trans). intros [v1 s1].
    unfold bind at 1. cbn [getk].
    destruct (Forall_dec plain) with (l := v_last v1) as [F|F].
    { intros []; cbn [plain]; auto. }
    - match goal with |- match ?m _ with _ => _ end => assert (G : keeps insK m); [|exact (G (v1, s1))] end.
      apply (keeps_bind _ insK_trans); [apply insK_modk; intros; [reflexivity|constructor]|intros _].
      apply (keeps_bind _ insK_trans); [apply insK_mfor; exact F|intros _]. apply (keeps_ret _ insK_refl).
    - match goal with |- match ?o with _ => _ end => destruct o; auto; intros [_ [C _]]; contradiction end. }
  unfold after, bind at 1. cbn [getk].
  set (rest := lift (move_cursor_left E 1) ;;; pop_mode E).
  assert (Hr : keeps heldK rest) by (unfold rest; kkh).
  assert (F : forall m : MV unit, keeps insK m -> after sameK (m ;;; rest) (v, s)).
  { intros m Hm. unfold after, bind. specialize (Hm (v, s)). destruct (m (v, s)) as [a [v1 s1]|e [v1 s1]| |]; auto.
    - destruct (Hm (conj M (conj P Rc))) as [[_ [_ R1]] S1]. specialize (Hr (v1, s1)).
      destruct (rest (v1, s1)) as [b [v2 s2]|e [v2 s2]| |]; auto; (eapply samen_trans; [exact S1|exact (proj2 (Hr R1))]).
    - exact (proj2 (Hm (conj M (conj P Rc)))). }
  apply F. apply (keeps_when _ insK_refl).
  apply (keeps_bind _ insK_trans); [apply insK_modk; intros; [reflexivity|assumption]|intros _].
  apply (keeps_bind _ insK_trans); [apply Loop|intros _].
  apply insK_modk; intros; [reflexivity|assumption].
Qed.

Lemma n_group : forall f, f = start_undo_group \/ f = end_undo_group -> keeps sameK (buf_mut f).
Proof. intros f [-> | ->]; unfold buf_mut; apply on_lift, samen_group; reflexivity. Qed.

Lemma h_insert_mode : forall rec E k,
  match k with KUp | KDown | KEsc => False | KCtrl c => is_char c "[" = false | _ => True end ->
  keeps heldK (vi_insert rec E k).
Proof.
  intros rec E k H. unfold vi_insert. cbv zeta. pose proof h_insert_reset.
  assert (C : forall k', k' <> KUp -> k' <> KDown -> keeps heldK (vi_common E k')) by (intros; apply h_common; assumption).
  destruct k; try contradiction; unfold push_last; try rewrite H; kkh; apply C; discriminate.
Qed.

(** Moving keys, from any state. *)
Lemma n_pop_movement : forall E mt v s, v_stack v = [] ->
  after sameK (pop_mode_after_movement E mt) (v, s).
Proof.
  intros E mt v s H. unfold after, pop_mode_after_movement, bind at 1. cbn [getk]. unfold vpop at 1. rewrite H.
  unfold vmode_of at 1. rewrite H. cbv beta iota zeta.
  match goal with |- match ?m _ with _ => _ end => assert (G : keeps sameK m); [|exact (G (v, s))] end.
  kkn.
Qed.
Lemma lift_then : forall (m : ME unit) (k : MV unit) v s, keeps samen m ->
  (forall s', after sameK k (v, s')) -> after sameK (lift m ;;; k) (v, s).
Proof.
  intros m k v s Hm Hk. unfold after, bind, lift. specialize (Hm s). destruct (m s) as [a s'|e s'| |]; auto.
  specialize (Hk s'). unfold after in Hk. destruct (k (v, s')) as [b [v2 s2]|e [v2 s2]| |]; auto;
    (eapply samen_trans; [exact Hm|exact Hk]).
Qed.
Lemma n_insert_moves : forall rec E k, In k [KUp; KDown; KLeft; KHome; KEnd; KRight] -> keeps sameK (vi_insert rec E k).
Proof.
  intros rec E k. revert k. apply Forall_forall. pose proof (n_group start_undo_group (or_introl eq_refl)).
  pose proof (n_group end_undo_group (or_intror eq_refl)).
  repeat (apply Forall_cons; [unfold vi_insert, vi_common; cbv zeta; kkn|]). apply Forall_nil.
Qed.
Lemma n_normal_moves : forall rec E k v s, v_stack v = [] ->
  In k ([KUp; KDown; KLeft; KHome; KEnd; KRight] ++ map KChar (str "hjklwWeEbB0123456789^$ ")) ->
  after sameK (vi_normal rec E k) (v, s).
Proof.
  intros rec E k v s Hv. revert k. apply Forall_forall.
  assert (P : forall mt s', after sameK (pop_mode_after_movement E mt) (v, s')) by (intros; apply n_pop_movement; exact Hv).
  assert (Z : forall (m : ME unit) mt, keeps samen m -> after sameK (lift m ;;; pop_mode_after_movement E mt) (v, s)).
  { intros m mt Hm. apply lift_then; [exact Hm|apply P]. }
  assert (Y : forall (m : vi -> ed -> ME unit) mt, (forall a b, keeps samen (m a b)) ->
     after sameK ((a <- getk ;; b <- gete ;; lift (m a b) ;;; pop_mode_after_movement E mt) : MV unit) (v, s)).
  { intros m mt Hm. apply Z. apply Hm. }
  assert (W : after sameK ((n <- mcr ;; lift (move_cursor_right E n) ;;; pop_mode_after_movement E Exclusive) : MV unit) (v, s)).
  { unfold after, bind at 1. unfold mcr, bind at 1 2. cbn [getk gete]. unfold liftr.
    destruct (move_count_right v s); [|exact I]. apply Z. auto with brw. }
  assert (V : forall m : MV unit, keeps sameK m -> after sameK m (v, s)) by (intros m Hm; exact (Hm (v, s))).
  repeat (apply Forall_cons; [|]); [..|apply Forall_nil];
    unfold vi_normal; cbn;
    first [ apply Z; solve [auto with brw]
          | solve [apply (Y (fun a b => move_cursor_left E (move_count_left a b))); auto with brw]
          | exact W
          | solve [apply (Y (fun a _ => vi_move_word E _ _ (move_count a))); auto with brw]
          | solve [apply (Y (fun a _ => vi_move_word_end E _ _ (move_count a))); auto with brw]
          | apply V; unfold vi_common; solve [kkn]
          | idtac ].
  all: try (unfold after, bind at 1; cbn [getk]; destruct (v_count v =? 0)%N; cbn [andb];
            [apply Z; auto with brw|reflexivity]).
  all: reflexivity.
Qed.

Lemma J_normal : forall n v, J n v -> vmode_of v = MNormal -> v_stack v = [].
Proof. intros n v HJ M. pose proof (j_shape _ _ HJ) as S. unfold vmode_of in M. destruct S; try discriminate; reflexivity. Qed.

Lemma vi_edit : forall E k n v s, J n v -> recalled s -> k <> kch "." -> after sameK (vi_core E k) (v, s).
Proof.
  intros E k n v s HJ Rc Hk. unfold vi_core, after, bind at 1. cbn [getk].
  destruct (vi_fuel v) as [|f]; [exact I|]. cbn [vi_core_fuel]. unfold bind at 1. cbn [getk].
  assert (G : forall m : MV unit, keeps heldK m -> after sameK m (v, s)).
  { intros m Hm. specialize (Hm (v, s)). unfold after. destruct (m (v, s)); auto; exact (proj2 (Hm Rc)). }
  destruct (vmode_of v) eqn:M.
  - destruct k; try (apply G, h_insert_mode; exact I).
    + destruct (is_char c "[") eqn:B; [|apply G, h_insert_mode; exact B].
      pose proof (esc_samen f E v s M (j_last _ _ HJ) Rc) as H. unfold vi_insert in *. rewrite B. exact H.
    + apply n_insert_moves. cbn. auto.
    + apply n_insert_moves. cbn. auto.
    + apply esc_samen; [exact M|exact (j_last _ _ HJ)|exact Rc].
  - pose proof (J_normal _ _ HJ M) as S. destruct (vi_nav k) eqn:N; [|apply G, h_normal; assumption].
    apply n_normal_moves; [exact S|]. destruct k; try discriminate; [|cbn; auto..].
    cbn [vi_nav] in N. apply orb_prop in N as [N|N]; unfold is_char in N; apply N.eqb_eq in N; subst c; cbn; auto 20.
  - apply G. apply h_replace.
  - apply G. apply h_delete.
  - apply G. apply h_to_char.
  - apply G. apply h_g.
  - exact I.
Qed.
Lemma vi_move : forall E k v s, vi_moves v k \/ (k = KRight /\ vi_moves v KLeft) -> after sameK (vi_core E k) (v, s).
Proof.
  intros E k v s H. unfold vi_core, after, bind at 1. cbn [getk].
  destruct (vi_fuel v) as [|f]; [exact I|]. cbn [vi_core_fuel]. unfold bind at 1. cbn [getk].
  assert (D : (v_stack v = [] /\ In k ([KUp; KDown; KLeft; KHome; KEnd; KRight] ++ map KChar (str "hjklwWeEbB0123456789^$ "))) \/
              (v_stack v = [MInsert] /\ In k [KUp; KDown; KLeft; KHome; KEnd; KRight])).
  { assert (A : forall y, In y [KUp; KDown; KLeft; KHome; KEnd] -> In y [KUp; KDown; KLeft; KHome; KEnd; KRight]).
    { intros y Hy. cbn in *. tauto. }
    destruct H as [[[[H|H] Hk]|[H Hk]]|[-> [[[H|H] Hk]|[H Hk]]]].
    - left. split; [exact H|]. apply in_or_app. left. auto.
    - right. split; [exact H|auto].
    - left. split; [exact H|]. apply in_or_app. right. exact Hk.
    - left. split; [exact H|]. cbn. auto 10.
    - right. split; [exact H|]. cbn. auto 10.
    - left. split; [exact H|]. cbn. auto 10. }
  unfold vmode_of. destruct D as [[S Hk]|[S Hk]]; rewrite S.
  - apply n_normal_moves; assumption.
  - apply n_insert_moves. exact Hk.
Qed.
Lemma vi_ctrl_f : forall E v s, vi_moves v KLeft -> after sameK (vi_core E (KCtrl (ch "f"))) (v, s).
Proof.
  intros E v s H. unfold vi_core, after, bind at 1. cbn [getk].
  destruct (vi_fuel v) as [|f]; [exact I|]. cbn [vi_core_fuel]. unfold bind at 1. cbn [getk].
  assert (D : vmode_of v = MNormal \/ vmode_of v = MInsert).
  { unfold vmode_of. destruct H as [[[-> | ->] _]|[-> _]]; auto. }
  destruct D as [-> | ->]; reflexivity.
Qed.

Lemma vi_browse_new : forall x y, vi_browse x y -> (exists n, J n (fst x)) ->
  data (ed_new (snd y)) = data (ed_new (snd x)).
Proof.
  intros x y H. induction H as [x|E k x y z Hk Hh _ IH]; [reflexivity|]. intros [n HJ].
  destruct x as [v s], y as [v' s']. cbn [fst snd] in *.
  assert (HJ' : exists n', J n' v').
  { pose proof (vk_handle_key E k v (fun v' => exists n', J n' v') (ex_intro _ n HJ) (vk_vi_core E _ n v HJ) s) as V.
    rewrite Hh in V. exact V. }
  rewrite (IH HJ'). clear IH.
  assert (A : after sameK (handle_key vi_core E k) (v, s)).
  { destruct Hk as [Hk|[[Hl [Hk Hs]]|[R1 [R2 Hd]]]].
    - apply samen_handle; [|apply vi_move; left; exact Hk].
      assert (L : In k ([KUp; KDown; KLeft; KHome; KEnd] ++ map KChar (str "hjklwWeEbB0123456789^$ "))).
      { apply in_or_app. destruct Hk as [[_ Hk]|[_ Hk]]; auto. }
      clear Hk Hh. revert k L. apply Forall_forall. cbn [app map str].
      repeat (apply Forall_cons; [cbn; repeat split; discriminate|]). apply Forall_nil.
    - apply samen_handle.
      + destruct Hk as [-> | ->]; cbn; [exact Hs|]. repeat split; try discriminate. auto.
      + destruct Hk as [-> | ->]; [apply vi_move; right; auto|apply vi_ctrl_f; exact Hl].
    - apply held_handle; [split; assumption|]. apply (vi_edit _ _ n); [exact HJ|split; assumption|].
      destruct k; try exact Hd; try discriminate. destruct (is_char c "h"); discriminate. }
  unfold after in A. rewrite Hh in A. exact A.
Qed.

Lemma new_line : forall s t c, line_is s t c -> ed_loc s = None -> data (ed_new s) = t.
Proof. intros s t c [b [H1 [H2 _]]] L. unfold cur_buf in H1. rewrite L in H1. injection H1 as ->. exact H2. Qed.
Lemma line_new : forall s t, data (ed_new s) = t -> ed_loc s = None -> exists c, line_is s t c.
Proof. intros s t H L. exists (ed_cursor s), (ed_new s). unfold cur_buf. rewrite L. auto. Qed.

Lemma emacs_keeps_line : forall k s k' s' t c,
  line_is s t c -> ed_loc s = None -> emacs_browse (k, s) (k', s') -> ed_loc s' = None ->
  exists c', line_is s' t c'.
Proof.
  intros k s k' s' t c H L B L'. apply line_new; [|exact L'].
  rewrite <- (new_line s t c H L). exact (emacs_browse_new _ _ B).
Qed.
Lemma vi_keeps_line : forall E l s0 d v s v' s' t c,
  (vi_init E ;;; run_keys vi_core l) (vi_new, s0) = ORet d (v, s) ->
  line_is s t c -> ed_loc s = None -> vi_browse (v, s) (v', s') -> ed_loc s' = None ->
  exists c', line_is s' t c'.
Proof.
  intros E l s0 d v s v' s' t c R H L B L'. apply line_new; [|exact L'].
  rewrite <- (new_line s t c H L). apply (vi_browse_new _ _ B). cbn [fst].
  pose proof (vk_session E l s0) as V. rewrite R in V. exact V.
Qed.

(** Alt-> leads back to the end. *)
Lemma display_loc : forall E, keeps (fun s s' => ed_loc s = None -> ed_loc s' = None) (display E).
Proof.
  intros E s. pose proof (display_out E s) as H. destruct (display E s) as [a s'|e s'|p|]; auto; intro L.
  - destruct H as [g [b [tcl [cb [tty [_ [_ ->]]]]]]]. unfold shown, refreshed. edsimp.
    destruct (is_search s && ed_changed s); [reflexivity|exact L].
  - destruct H as [_ [g [c [tcl [cb [_ [-> _]]]]]]]. unfold shown, refreshed. edsimp.
    destruct (is_search s && ed_changed s); [reflexivity|exact L].
Qed.
Lemma hist_end_loc : forall E s u s', move_to_end_of_history E s = ORet u s' -> ed_loc s' = None.
Proof.
  intros E s u s' H. unfold move_to_end_of_history, bind, modify, get in H.
  destruct (ed_loc (set_hvalid false s)) eqn:L.
  - unfold move_cursor_to_end_of_line, bind, get_cur, modify in H. cbn [cur_buf set_loc ed_loc] in H.
    pose proof (display_loc E (set_cursor (num_chars (ed_new s)) (set_loc None (set_hvalid false s)))) as D.
    change (ed_new (set_loc None (set_hvalid false s))) with (ed_new s) in H.
    rewrite H in D. apply D. reflexivity.
  - pose proof (display_loc E (set_hvalid false s)) as D. rewrite H in D. apply D. exact L.
Qed.
Lemma alt_end : forall E x d y, handle_key emacs_core E (KAlt (ch ">")) x = ORet d y ->
  d = false /\ ed_loc (snd y) = None.
Proof.
  intros E [k s] d y H. unfold handle_key, bind at 1 in H. cbn [gete] in H. unfold bind at 1 in H.
  destruct (cur_buf s) as [b|]; [|discriminate]. cbv beta iota zeta in H.
  unfold emacs_core, emacs_alt in H. cbn in H. unfold bind, modk, lift in H.
  destruct (move_to_end_of_history E s) as [u s'| | |] eqn:M; try discriminate.
  cbn in H. destruct (e_wok E); [|discriminate]. unfold ret in H. injection H as <- <-.
  split; [reflexivity|]. exact (hist_end_loc E s u s' M).
Qed.
Lemma emacs_returns : forall k s k' s' t c E d k'' s'',
  line_is s t c -> ed_loc s = None -> emacs_browse (k, s) (k', s') ->
  handle_key emacs_core E (KAlt (ch ">")) (k', s') = ORet d (k'', s'') ->
  d = false /\ ed_loc s'' = None /\ exists c', line_is s'' t c'.
Proof.
  intros k s k' s' t c E d k'' s'' H L B A. destruct (alt_end _ _ _ _ A) as [-> L']. split; [reflexivity|].
  split; [exact L'|]. apply (emacs_keeps_line k s k'' s'' t c H L); [|exact L'].
  assert (C : emacs_browse (k', s') (k'', s'')).
  { eapply browse_key; [left|exact A|apply browse_nil]. cbn. unfold emacs_moves. cbn. auto 20. }
  clear A. unfold emacs_browse in *. induction B; [exact C|]. eapply browse_key; eauto.
Qed.

(** * Checking that a concrete run browses *)
Definition key_dec : forall a b : key, {a = b} + {a <> b}.
Proof. decide equality; try apply N.eq_dec. apply Nat.eq_dec. Defined.
Definition inb (k : key) (l : list key) : bool := if in_dec key_dec k l then true else false.
Lemma inb_in : forall k l, inb k l = true -> In k l.
Proof. intros k l. unfold inb. destruct (in_dec key_dec k l); [auto|discriminate]. Qed.
Definition emacs_movesb (_ : emacs) (k : key) : bool :=
  inb k ([KUp; KDown; KLeft; KHome; KEnd] ++ map KCtrl (str "pnabe") ++ map KAlt (str "<>bf")).
Definition vi_movesb (v : vi) (k : key) : bool :=
  match v_stack v with
  | [] => inb k ([KUp; KDown; KLeft; KHome; KEnd] ++ map KChar (str "hjklwWeEbB0123456789^$ "))
  | [MInsert] => inb k [KUp; KDown; KLeft; KHome; KEnd]
  | _ => false
  end.
Lemma emacs_movesb_ok : forall e k, emacs_movesb e k = true -> emacs_moves e k.
Proof. intros e k H. apply inb_in. exact H. Qed.
Lemma vi_movesb_ok : forall v k, vi_movesb v k = true -> vi_moves v k.
Proof.
  intros v k H. unfold vi_movesb in H. unfold vi_moves. destruct (v_stack v) as [|[] [|? ?]]; try discriminate.
  - apply inb_in in H. apply in_app_or in H as [H|H]; auto.
  - apply inb_in in H. auto.
Qed.
Fixpoint browseb {K} (movesb : K -> key -> bool) (editsb : key -> bool) (core : env -> key -> MK K unit)
  (E : env) (l : list key) (x : K * ed) : bool :=
  match l with
  | [] => true
  | k :: l' =>
    (movesb (fst x) k ||
     ((match ed_loc (snd x) with Some _ => true | None => false end) && negb (is_search (snd x)) && editsb k))
    && match handle_key core E k x with ORet false y => browseb movesb editsb core E l' y | _ => false end
  end.
Lemma browseb_ok : forall {K} (moves : K -> key -> Prop) (edits : key -> Prop) movesb editsb (core : env -> key -> MK K unit) E,
  (forall a k, movesb a k = true -> moves a k) -> (forall k, editsb k = true -> edits k) ->
  forall l x y, browseb movesb editsb core E l x = true ->
  run_keys core (map (pair E) l) x = ORet false y -> browse moves edits core x y.
Proof.
  intros K moves edits movesb editsb core E H1 H2. induction l as [|k l IH]; intros x y B R; cbn [map run_keys browseb] in *.
  - injection R as <-. apply browse_nil.
  - apply andb_prop in B as [B1 B2]. unfold bind in R.
    destruct (handle_key core E k x) as [[|] x1| | |] eqn:Hh; try discriminate.
    eapply browse_key; [|exact Hh|apply IH; assumption].
    apply orb_prop in B1 as [B1|B1]; [left; auto|]. right. right.
    apply andb_prop in B1 as [B1 B3]. apply andb_prop in B1 as [B0 B1].
    repeat split; [intro C; rewrite C in B0; discriminate|apply negb_true_iff; exact B1|auto].
Qed.
