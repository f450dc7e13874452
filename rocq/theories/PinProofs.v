(** Where the editor stands in the history, and which calls leave that alone (C73). *)
From Verif Require Import Base BufferModel HistoryModel EditorState EditorModel KeymapModel ViModel
  MonadLemmas EditorLemmas EditorSpec BrowseSpec WalkSpec ViEffects ViModes ViRepeat BrowseProofs.
Local Open Scope monad_scope.

(** The place in the history. *)
Definition pos (s : ed) := (ed_loc s, ed_subset s, ed_subloc s, ed_rev s, ed_fwd s).
Lemma pos_search : forall s s', pos s' = pos s -> is_search s' = is_search s.
Proof. intros s s' H. unfold pos in H. injection H as _ _ _ H1 H2. unfold is_search. congruence. Qed.
Lemma pos_loc : forall s s', pos s' = pos s -> ed_loc s' = ed_loc s.
Proof. intros s s' H. unfold pos in H. congruence. Qed.

(** Outside a search the place stays, and so does the text of the new line
    when an entry is shown; a search that ends leaves no place behind. *)
Definition pin (s s' : ed) : Prop :=
  ed_history s' = ed_history s /\
  if is_search s then is_search s' = false -> ed_subloc s' = None
  else pos s' = pos s /\ (ed_loc s <> None -> samen s s').
Lemma pin_refl : refl pin.
Proof. intro s. split; [reflexivity|]. destruct (is_search s) eqn:E; [congruence|]. split; [reflexivity|]. intros _. apply samen_refl. Qed.
Lemma pin_trans : trans pin.
Proof.
  intros a b c [H1 H2] [H3 H4]. split; [congruence|]. destruct (is_search a) eqn:Ea.
  - destruct (is_search b) eqn:Eb; [exact H4|]. destruct H4 as [H4 _]. specialize (H2 eq_refl). intros _. unfold pos in H4. congruence.
  - destruct H2 as [H2 H5]. rewrite (pos_search _ _ H2), Ea in H4. destruct H4 as [H4 H6]. split; [congruence|].
    intro L. eapply samen_trans; [apply H5; exact L|]. apply H6. rewrite (pos_loc _ _ H2). exact L.
Qed.
(** A change that touches neither. *)
Lemma pin_other : forall s s', ed_history s' = ed_history s -> pos s' = pos s -> ed_new s' = ed_new s -> pin s s'.
Proof.
  intros s s' H1 H2 H3. split; [exact H1|]. rewrite <- (pos_search _ _ H2). destruct (is_search s') eqn:E; [congruence|].
  split; [exact H2|]. intros _. unfold samen. rewrite H3. reflexivity.
Qed.
Ltac pnd := apply pin_other; reflexivity.
Lemma refreshed_pin : forall s, pin s (refreshed s).
Proof.
  intro s. unfold refreshed. destruct (is_search s && ed_changed s) eqn:E; [|apply pin_refl].
  apply andb_prop in E as [E _]. split; [reflexivity|]. rewrite E. intro H. exfalso. revert H. unfold refresh_search, is_search. edsimp.
  destruct (ed_fwd s); discriminate.
Qed.
Lemma pin_display : forall E, keeps pin (display E).
Proof.
  intros E s. pose proof (display_out E s) as H. destruct (display E s) as [a s'|e s'|p|]; auto.
  - destruct H as [g [b [tcl [cb [tty [_ [_ ->]]]]]]]. apply pin_trans with (refreshed s); [apply refreshed_pin|].
    unfold shown. pnd.
  - destruct H as [_ [g [c [tcl [cb [_ [-> _]]]]]]]. apply pin_trans with (refreshed s); [apply refreshed_pin|].
    unfold shown. pnd.
Qed.
Lemma pin_display_impl : forall E b, keeps pin (display_impl E b).
Proof.
  intros E b s. pose proof (display_impl_out E b s) as H. destruct (display_impl E b s) as [a s'|e s'|p|]; auto.
  - destruct H as [? [tcl [cb [tty [_ ->]]]]]. pnd.
  - destruct H as [_ [c [tcl [cb [-> _]]]]]. pnd.
Qed.
Lemma pin_get_cur : keeps pin get_cur.
Proof. intro s. unfold get_cur. destruct (cur_buf s); [apply pin_refl|exact I]. Qed.
Lemma pin_with_cur_mut : forall {A} (f : buffer -> res (A * buffer)), keeps pin (with_cur_mut f).
Proof.
  intros A f. apply (keeps_bind _ pin_trans).
  - intro s. unfold cur_prep. edsimp. destruct (ed_loc s) eqn:L; [|pnd].
    destruct (ed_hvalid s) eqn:V; [pnd|].
    destruct (hist_get _ _); [|exact I]. destruct (copy_buffer _ _); [pnd|exact I].
  - intros _ s. unfold cur_upd. destruct (ed_loc s) eqn:L.
    + destruct (f (ed_hist s)) as [[a b]|]; [|exact I]. pnd.
    + destruct (f (ed_new s)) as [[a b]|]; [|exact I]. split; [reflexivity|].
      destruct (is_search s) eqn:Es; [unfold is_search in *; edsimp; congruence|]. split; [reflexivity|congruence].
Qed.
Lemma pin_tty_write : forall E t, keeps pin (tty_write E t).
Proof. intros E t s. unfold tty_write. destruct (e_wok E); pnd. Qed.
#[export] Hint Resolve pin_display pin_display_impl pin_get_cur pin_with_cur_mut pin_tty_write : brw.
Ltac kp1 :=
  match goal with
  | |- keeps _ (modify _) => let s := fresh "s" in apply keeps_modify; intro s; cbv beta; first [reflexivity | solve [pnd] | idtac]
  | |- _ => kb1 pin_trans pin_refl
  end.
Ltac kbp := repeat kp1.
Notation pinK := (on_ed pin) (only parsing).
Ltac kkp1 :=
  cbv beta zeta;
  match goal with
  | |- keeps _ (lift _) => apply on_lift; kbp
  | |- keeps _ (mod_ed _) => let s := fresh "s" in apply on_mod_ed; intro s; cbv beta; first [reflexivity | solve [pnd] | idtac]
  | |- _ => kk1 pin_trans pin_refl
  end.
Ltac kkp := repeat kkp1.

Lemma p_move_end : forall E, keeps pin (move_cursor_to_end_of_line E).
Proof. intro E. unfold move_cursor_to_end_of_line. kbp. Qed.
Lemma p_move_start : forall E, keeps pin (move_cursor_to_start_of_line E).
Proof. intro E. unfold move_cursor_to_start_of_line. kbp. Qed.
Lemma p_move_to : forall E n, keeps pin (move_cursor_to E n).
Proof. intros E n. unfold move_cursor_to. kbp. Qed.
Lemma p_move_left : forall E n, keeps pin (move_cursor_left E n).
Proof. intros E n. unfold move_cursor_left. kbp. Qed.
Lemma p_move_right : forall E n, keeps pin (move_cursor_right E n).
Proof. intros E n. unfold move_cursor_right. kbp. Qed.
#[export] Hint Resolve p_move_end p_move_start p_move_to p_move_left p_move_right : brw.
Lemma p_move_word : forall E b, keeps pin (emacs_move_word E b).
Proof. intros E b. unfold emacs_move_word. kbp. Qed.
Lemma p_vi_word : forall E a b c, keeps pin (vi_move_word E a b c).
Proof. intros. unfold vi_move_word. kbp. Qed.
Lemma p_vi_word_end : forall E a b c, keeps pin (vi_move_word_end E a b c).
Proof. intros. unfold vi_move_word_end. kbp. Qed.
Lemma p_insert : forall E t, keeps pin (insert_chars_after_cursor E t).
Proof. intros E t. unfold insert_chars_after_cursor. kbp. Qed.
Lemma p_insert1 : forall E c, keeps pin (insert_after_cursor E c).
Proof. intros E c. apply p_insert. Qed.
Lemma p_insert_str : forall E c, keeps pin (insert_str_after_cursor E c).
Proof. intros E c. apply p_insert. Qed.
Lemma p_del_before : forall E, keeps pin (delete_before_cursor E).
Proof. intros E. unfold delete_before_cursor. kbp. Qed.
Lemma p_del_after : forall E, keeps pin (delete_after_cursor E).
Proof. intros E. unfold delete_after_cursor. kbp. Qed.
Lemma p_del_all_before : forall E, keeps pin (delete_all_before_cursor E).
Proof. intros E. unfold delete_all_before_cursor. kbp. Qed.
Lemma p_del_all_after : forall E, keeps pin (delete_all_after_cursor E).
Proof. intros E. unfold delete_all_after_cursor. kbp. Qed.
Lemma p_del_until : forall E n, keeps pin (delete_until E n).
Proof. intros E n. unfold delete_until. kbp. Qed.
Lemma p_del_until_inc : forall E n, keeps pin (delete_until_inclusive E n).
Proof. intros E n. unfold delete_until_inclusive. kbp. Qed.
Lemma p_del_word : forall E b, keeps pin (delete_word_before_cursor E b).
Proof. intros E b. unfold delete_word_before_cursor. kbp. Qed.
#[export] Hint Resolve p_move_word p_vi_word p_vi_word_end p_insert p_insert1 p_insert_str p_del_before
  p_del_after p_del_all_before p_del_all_after p_del_until p_del_until_inc p_del_word : brw.
Lemma p_undo_like : forall E f, keeps pin (undo_like E f).
Proof. intros E f. unfold undo_like. kbp. Qed.
#[export] Hint Resolve p_undo_like : brw.
Lemma p_undo : forall E, keeps pin (ed_undo E).
Proof. intro E. unfold ed_undo. kbp. Qed.
Lemma p_redo : forall E, keeps pin (ed_redo E).
Proof. intro E. unfold ed_redo. kbp. Qed.
Lemma p_revert : forall E, keeps pin (ed_revert E).
Proof. intro E. unfold ed_revert. kbp. Qed.
#[export] Hint Resolve p_undo p_redo p_revert : brw.
Lemma p_complete : forall E, keeps pin (complete E).
Proof. intros E. unfold complete. kbp. Qed.
#[export] Hint Resolve p_complete : brw.
(** ** Emacs *)
Lemma p_last_arg : forall E, keeps pinK (handle_last_arg_fetch E).
Proof. intro E. unfold handle_last_arg_fetch. kkp. Qed.
Lemma p_emacs_ctrl : forall E c, is_char c "p" = false -> is_char c "n" = false -> is_char c "l" = false -> keeps pin (emacs_ctrl E c).
Proof. intros E c H1 H2 H3. unfold emacs_ctrl. rewrite H1, H2, H3. kbp. Qed.
Lemma p_emacs_core : forall E k, emacs_nav emacs_new k = None ->
  match k with
  | KCtrl c => is_char c "l" = false
  | KAlt c => is_char c "<" = false /\ is_char c ">" = false
  | _ => True
  end -> keeps pinK (emacs_core E k).
Proof.
  intros E k N H. unfold emacs_core. destruct k; cbn [emacs_nav] in N; try discriminate; kkp.
  - destruct H as [H1 H2]. unfold emacs_alt. rewrite H1, H2. pose proof p_last_arg. kkp.
  - destruct (is_char c "p") eqn:H1; [discriminate|]. destruct (is_char c "n") eqn:H2; [discriminate|]. apply p_emacs_ctrl; assumption.
Qed.

(** ** Vi *)
Lemma p_set_vi_mode : forall m s, pin s (set_vi_mode m s).
Proof. intros m s. unfold set_vi_mode. destruct (pr_vi (ed_prompt s)); [pnd|apply pin_refl]. Qed.
Lemma n_set_vi_mode : forall m s, samen s (set_vi_mode m s).
Proof. intros m s. unfold set_vi_mode. destruct (pr_vi (ed_prompt s)); reflexivity. Qed.
Lemma p_editor_mode : forall E, keeps pinK (set_editor_mode E).
Proof. intro E. unfold set_editor_mode. kkp; apply p_set_vi_mode. Qed.
Lemma n_editor_mode : forall E, keeps sameK (set_editor_mode E).
Proof. intro E. unfold set_editor_mode. kkn; apply n_set_vi_mode. Qed.
Lemma p_buf_mut : forall f, keeps pinK (buf_mut f).
Proof. intro f. unfold buf_mut. kkp. Qed.
#[export] Hint Resolve p_editor_mode n_editor_mode p_buf_mut : brw.
Lemma p_mode_preserve : forall E m, keeps pinK (set_mode_preserve_last E m).
Proof. intros E m. unfold set_mode_preserve_last. kkp. Qed.
#[export] Hint Resolve p_mode_preserve : brw.
Lemma p_set_mode : forall E m, keeps pinK (set_mode E m).
Proof. intros E m. unfold set_mode. kkp. Qed.
Lemma p_pop_movement : forall E mt, keeps pinK (pop_mode_after_movement E mt).
Proof. intros E mt. unfold pop_mode_after_movement. kkp. Qed.
Lemma p_pop_mode : forall E, keeps pinK (pop_mode E).
Proof.
  intro E. unfold pop_mode. kkp; intros [vv ss];
  pose proof (on_lift (K:=vi) pin (display E) (pin_display E) (vv, ss)) as D;
  destruct (lift (display E) (vv, ss)); auto.
Qed.
Lemma p_abort : forall E, keeps pinK (normal_mode_abort E).
Proof. intro E. unfold normal_mode_abort. kkp. Qed.
Lemma p_mcr : keeps pinK mcr.
Proof. unfold mcr. kkp. Qed.
Lemma n_mcr : keeps sameK mcr.
Proof. unfold mcr. kkn. Qed.
Lemma p_insert_reset : keeps pinK insert_reset.
Proof. unfold insert_reset. kkp. Qed.
#[export] Hint Resolve p_set_mode p_pop_movement p_pop_mode p_abort p_mcr n_mcr p_insert_reset : brw.
Lemma p_common : forall E k, k <> KUp -> k <> KDown -> match k with KCtrl c => is_char c "l" = false | _ => True end ->
  keeps pinK (vi_common E k).
Proof. intros E k H1 H2 H3. unfold vi_common. destruct k; try congruence; try rewrite H3; kkp. Qed.
Lemma p_to_char : forall E k m, keeps pinK (vi_move_to_char E k m).
Proof. intros E k m. unfold vi_move_to_char, push_cur. kkp. Qed.
Lemma p_tilde : forall E, keeps pinK (tilde_step E).
Proof. intro E. unfold tilde_step. kkp. Qed.
Lemma p_replace : forall E k, keeps pinK (vi_replace E k).
Proof. intros E k. unfold vi_replace. kkp. Qed.
Lemma p_finally : forall m f, keeps pinK m -> keeps pinK (finally m f).
Proof. intros m f H [v s]. unfold finally. specialize (H (v, s)). destruct (m (v, s)) as [a [v' s']|e [v' s']| |]; exact H. Qed.
Lemma p_g : forall E k, keeps pinK (vi_g E k).
Proof. intros E k. unfold vi_g, push_cur. kkp; apply p_finally; kkp. Qed.
#[export] Hint Resolve p_common p_to_char p_tilde p_replace p_g : brw.

Definition p_nav (k : key) : bool :=
  match k with KUp | KDown => true | KChar c => is_char c "j" || is_char c "k" | KCtrl c => is_char c "l" | _ => false end.
Lemma p_normal : forall rec E k, p_nav k = false -> k <> kch "." -> keeps pinK (vi_normal rec E k).
Proof.
  intros rec E k H Hd. unfold vi_normal, push_cur.
  assert (C : forall k', p_nav k' = false -> keeps pinK (vi_common E k')).
  { intros k' H'. apply p_common; [intros ->; discriminate..|]. destruct k'; try exact I. exact H'. }
  destruct k as [c| | | | | | | | | | | | |]; cbn [p_nav] in H; try discriminate;
    [|kkp; apply C; try reflexivity; exact H..].
  assert (D : is_char c "." = false).
  { unfold is_char. apply N.eqb_neq. intro Q. apply Hd. rewrite Q. reflexivity. }
  apply orb_false_elim in H as [H1 H2]. rewrite D, H1, H2. kkp; apply C; cbn; rewrite H1, H2; reflexivity.
Qed.
Lemma p_delete : forall rec E k, keeps pinK (vi_delete_or_change rec E k).
Proof.
  intros rec E k. unfold vi_delete_or_change, push_cur.
  assert (G : is_movement_key k = true \/ kis k "0" = true \/
     (match k with KChar c => ((48 <=? c) && (c <=? 57))%N | _ => false end) = true ->
     keeps pinK (vi_normal rec E k)).
  { intro M. apply p_normal.
    - destruct k; try reflexivity; cbn in M; try (destruct M as [M|[M|M]]; discriminate).
      cbn [p_nav]. destruct (is_char c "j") eqn:J1; [unfold is_char in J1; apply N.eqb_eq in J1; subst c; destruct M as [M|[M|M]]; discriminate|].
      destruct (is_char c "k") eqn:J2; [unfold is_char in J2; apply N.eqb_eq in J2; subst c; destruct M as [M|[M|M]]; discriminate|].
      reflexivity.
    - intros ->. destruct M as [M|[M|M]]; discriminate. }
  apply (keeps_bind _ (on_ed_trans _ pin_trans)); [kkp|]. intro v.
  destruct (is_movement_key k || (kis k "0" && (v_count v =? 0)%N)) eqn:B.
  { assert (G1 : keeps pinK (vi_normal rec E k)).
    { apply G. apply orb_prop in B as [B|B]; [left; exact B|right; left]. apply andb_prop in B as [B _]. exact B. }
    clear G B. kkp. }
  destruct (match k with KChar c => ((48 <=? c) && (c <=? 57))%N | _ => false end) eqn:B2.
  { apply G. auto. }
  clear G B B2. kkp.
Qed.

(** Insert mode; the counted repetition replays keys that were typed. *)
Definition insP (x y : vi * ed) : Prop :=
  vmode_of (fst x) = MInsert /\ Forall plain (v_last (fst x)) ->
  (vmode_of (fst y) = MInsert /\ Forall plain (v_last (fst y))) /\ pin (snd x) (snd y).
Lemma insP_refl : refl insP. Proof. intros x H. split; [exact H|apply pin_refl]. Qed.
Lemma insP_trans : trans insP.
Proof.
  intros x y z H1 H2 H. destruct (H1 H) as [H3 H4]. destruct (H2 H3) as [H5 H6]. split; [exact H5|].
  eapply pin_trans; eassumption.
Qed.
Lemma insP_lift : forall {A} (m : ME A), keeps pin m -> keeps insP (lift m).
Proof.
  intros A m H [v s]. unfold lift. specialize (H s). destruct (m s) as [a s'|e s'| |]; auto;
    intros H1; (split; assumption).
Qed.
Lemma insP_modk : forall f, (forall v, v_stack (f v) = v_stack v) ->
  (forall v, Forall plain (v_last v) -> Forall plain (v_last (f v))) -> keeps insP (modk f).
Proof.
  intros f H1 H2 [v s]. intros [H3 H4]. split; [|apply pin_refl]. unfold vmode_of in *. cbn [fst] in *. rewrite H1. auto.
Qed.
Lemma insP_reset : keeps insP insert_reset.
Proof.
  unfold insert_reset. apply (keeps_bind _ insP_trans); [intros [v s]; apply insP_refl|intro v].
  apply (keeps_when _ insP_refl). unfold buf_mut.
  apply (keeps_bind _ insP_trans); [apply insP_lift; auto with brw|intros _].
  apply (keeps_bind _ insP_trans); [apply insP_lift; auto with brw|intros _].
  apply insP_modk; intros; [reflexivity|constructor].
Qed.
Lemma insP_push : forall k, plain k -> keeps insP (push_last k).
Proof.
  intros k H. apply insP_modk; intros; [reflexivity|]. cbn. apply Forall_app. split; [assumption|repeat constructor; assumption].
Qed.
Lemma insP_typed : forall f E k, plain k -> keeps insP (vi_core_fuel f E k).
Proof.
  intros [|f] E k Hk; [intro; exact I|]. cbn [vi_core_fuel]. intros [v s]. unfold bind at 1. cbn [getk].
  destruct (vmode_of v) eqn:M;
    try (match goal with |- match ?o with _ => _ end => destruct o; auto; intros [C _]; cbn [fst] in C; rewrite M in C; discriminate end).
  assert (G : keeps insP (vi_insert (vi_core_fuel f E) E k)); [|exact (G (v, s))].
  unfold vi_insert. cbv zeta.
  assert (L : forall m : ME unit, keeps pin m -> keeps insP (lift m)) by (intros; apply insP_lift; assumption).
  destruct k; cbn [plain] in Hk; try contradiction; unfold vi_common;
    repeat match goal with
    | |- keeps _ (bind _ _) => apply (keeps_bind _ insP_trans); [|intro]
    | |- keeps _ insert_reset => exact insP_reset
    | |- keeps _ (push_last _) => apply insP_push; exact I
    | |- keeps _ (lift _) => apply insP_lift; auto with brw
    | |- keeps _ (modk _) => apply insP_modk; intros; [reflexivity|assumption]
    end.
Qed.
Lemma insP_mfor : forall f E l, Forall plain l -> keeps insP (mfor l (vi_core_fuel f E)).
Proof.
  intros f E l H. induction H; cbn [mfor]; [apply (keeps_ret _ insP_refl)|].
  apply (keeps_bind _ insP_trans); [apply insP_typed; assumption|intros _; assumption].
Qed.

Lemma esc_pin : forall f E v s, vmode_of v = MInsert -> Forall plain (v_last v) ->
  after pinK (vi_insert (vi_core_fuel f E) E KEsc) (v, s).
Proof.
  intros f E v s M P. unfold vi_insert. cbv zeta.
  assert (Loop : forall n, keeps insP (Nloop n
        (v0 <- getk ;; modk (vset_last []) ;;; mfor (v_last v0) (vi_core_fuel f E) ;;; ret true))).
  { intro n. apply (keeps_Nloop _ insP_refl insP_trans). intros [v1 s1].
    unfold bind at 1. cbn [getk].
    destruct (Forall_dec plain) with (l := v_last v1) as [F|F].
    { intros []; cbn [plain]; auto. }
    - match goal with |- match ?m _ with _ => _ end => assert (G : keeps insP m); [|exact (G (v1, s1))] end.
      apply (keeps_bind _ insP_trans); [apply insP_modk; intros; [reflexivity|constructor]|intros _].
      apply (keeps_bind _ insP_trans); [apply insP_mfor; exact F|intros _]. apply (keeps_ret _ insP_refl).
    - match goal with |- match ?o with _ => _ end => destruct o; auto; intros [_ C]; contradiction end. }
  unfold after, bind at 1. cbn [getk].
  set (rest := lift (move_cursor_left E 1) ;;; pop_mode E).
  assert (Hr : keeps pinK rest) by (unfold rest; kkp).
  assert (F : forall m : MV unit, keeps insP m -> after pinK (m ;;; rest) (v, s)).
  { intros m Hm. unfold after, bind. specialize (Hm (v, s)). destruct (m (v, s)) as [a [v1 s1]|e [v1 s1]| |]; auto.
    - destruct (Hm (conj M P)) as [_ S1]. specialize (Hr (v1, s1)).
      destruct (rest (v1, s1)) as [b [v2 s2]|e [v2 s2]| |]; auto; (eapply pin_trans; [exact S1|exact Hr]).
    - exact (proj2 (Hm (conj M P))). }
  apply F. apply (keeps_when _ insP_refl).
  apply (keeps_bind _ insP_trans); [apply insP_modk; intros; [reflexivity|assumption]|intros _].
  apply (keeps_bind _ insP_trans); [apply Loop|intros _].
  apply insP_modk; intros; [reflexivity|assumption].
Qed.

Lemma p_insert_mode : forall rec E k,
  match k with KUp | KDown | KEsc => False | KCtrl c => is_char c "[" = false /\ is_char c "l" = false | _ => True end ->
  keeps pinK (vi_insert rec E k).
Proof.
  intros rec E k H. unfold vi_insert. cbv zeta. pose proof p_insert_reset.
  assert (C : forall k', k' <> KUp -> k' <> KDown -> match k' with KCtrl c => is_char c "l" = false | _ => True end ->
    keeps pinK (vi_common E k')) by (intros; apply p_common; assumption).
  destruct k; try contradiction; unfold push_last; try rewrite (proj1 H); kkp; apply C; try discriminate; try exact I; apply H.
Qed.

