(** Proofs for C75: which keys touch the stored history and when it is read again. *)
From Verif Require Import Base Utf8 BufferModel UtilModel HistoryModel BufferSpec HistorySpec EditorState EditorModel
  KeymapModel ViModel MonadLemmas EditorLemmas EditorSpec BrowseSpec ViEffects ViModes ViRepeat BrowseProofs.
Local Open Scope monad_scope.

(** * Any relation that follows from an untouched history *)
Section Gen.
  Variable R : ed -> ed -> Prop.
  Hypothesis Rr : refl R.
  Hypothesis Rt : trans R.
  Hypothesis Ro : forall s s', ed_history s' = ed_history s -> ed_fresh s' = ed_fresh s -> ed_fs s' = ed_fs s -> R s s'.
  Hypothesis Rf : forall s, R s (freshen_history s).

  Lemma ro_display : forall E, keeps R (display E).
  Proof using Rt Ro.
    assert (Hr : forall s, R s (refreshed s)).
    { intro s. unfold refreshed. destruct (_ && _); apply Ro; reflexivity. }
    intros E s. pose proof (display_out E s) as H. destruct (display E s) as [a s'|e s'|p|]; auto.
    - destruct H as [g [b [tcl [cb [tty [_ [_ ->]]]]]]]. eapply Rt; [apply Hr|]. unfold shown. apply Ro; reflexivity.
    - destruct H as [_ [g [c [tcl [cb [_ [-> _]]]]]]]. eapply Rt; [apply Hr|]. unfold shown. apply Ro; reflexivity.
  Qed.
  Lemma ro_display_impl : forall E b, keeps R (display_impl E b).
  Proof using Ro.
    intros E b s. pose proof (display_impl_out E b s) as H. destruct (display_impl E b s) as [a s'|e s'|p|]; auto.
    - destruct H as [? [tcl [cb [tty [_ ->]]]]]. apply Ro; reflexivity.
    - destruct H as [_ [c [tcl [cb [-> _]]]]]. apply Ro; reflexivity.
  Qed.
  Lemma ro_get_cur : keeps R get_cur.
  Proof using Rr. intro s. unfold get_cur. destruct (cur_buf s); [apply Rr|exact I]. Qed.
  Lemma ro_with_cur_mut : forall {A} (f : buffer -> res (A * buffer)), keeps R (with_cur_mut f).
  Proof using Rt Ro.
    intros A f. apply (keeps_bind _ Rt).
    - intro s. unfold cur_prep. edsimp. destruct (ed_loc s); [|apply Ro; reflexivity].
      destruct (ed_hvalid s); [apply Ro; reflexivity|].
      destruct (hist_get _ _); [|exact I]. destruct (copy_buffer _ _); [apply Ro; reflexivity|exact I].
    - intros _ s. unfold cur_upd. destruct (ed_loc s).
      + destruct (f (ed_hist s)) as [[a b]|]; [|exact I]. apply Ro; reflexivity.
      + destruct (f (ed_new s)) as [[a b]|]; [|exact I]. apply Ro; reflexivity.
  Qed.
  Lemma ro_tty_write : forall E t, keeps R (tty_write E t).
  Proof using Ro. intros E t s. unfold tty_write. destruct (e_wok E); apply Ro; reflexivity. Qed.
  Hint Resolve ro_display ro_display_impl ro_get_cur ro_with_cur_mut ro_tty_write : brw.
  Ltac kr1 :=
    match goal with
    | |- keeps _ (modify _) => let s := fresh "s" in apply keeps_modify; intro s; cbv beta; first [solve [apply Ro; reflexivity] | idtac]
    | |- _ => kb1 Rt Rr
    end.
  Ltac kbr := repeat kr1.
  Notation RK := (on_ed R) (only parsing).
  Ltac kkr1 :=
    cbv beta zeta;
    match goal with
    | |- keeps _ (lift _) => apply on_lift; kbr
    | |- keeps _ (mod_ed _) => let s := fresh "s" in apply on_mod_ed; intro s; cbv beta; first [solve [apply Ro; reflexivity] | idtac]
    | |- _ => kk1 Rt Rr
    end.
  Ltac kkr := repeat kkr1.

  Lemma ro_move_end : forall E, keeps R (move_cursor_to_end_of_line E).
  Proof using Rr Rt Ro. intro E. unfold move_cursor_to_end_of_line. kbr. Qed.
  Lemma ro_move_start : forall E, keeps R (move_cursor_to_start_of_line E).
  Proof using Rr Rt Ro. intro E. unfold move_cursor_to_start_of_line. kbr. Qed.
  Lemma ro_move_to : forall E n, keeps R (move_cursor_to E n).
  Proof using Rr Rt Ro. intros E n. unfold move_cursor_to. kbr. Qed.
  Lemma ro_move_left : forall E n, keeps R (move_cursor_left E n).
  Proof using Rr Rt Ro. intros E n. unfold move_cursor_left. kbr. Qed.
  Lemma ro_move_right : forall E n, keeps R (move_cursor_right E n).
  Proof using Rr Rt Ro. intros E n. unfold move_cursor_right. kbr. Qed.
  Hint Resolve ro_move_end ro_move_start ro_move_to ro_move_left ro_move_right : brw.
  Lemma ro_move_word : forall E b, keeps R (emacs_move_word E b).
  Proof using Rr Rt Ro. intros E b. unfold emacs_move_word. kbr. Qed.
  Lemma ro_vi_word : forall E a b c, keeps R (vi_move_word E a b c).
  Proof using Rr Rt Ro. intros. unfold vi_move_word. kbr. Qed.
  Lemma ro_vi_word_end : forall E a b c, keeps R (vi_move_word_end E a b c).
  Proof using Rr Rt Ro. intros. unfold vi_move_word_end. kbr. Qed.
  Lemma ro_insert : forall E t, keeps R (insert_chars_after_cursor E t).
  Proof using Rr Rt Ro. intros E t. unfold insert_chars_after_cursor. kbr. Qed.
  Lemma ro_insert1 : forall E c, keeps R (insert_after_cursor E c).
  Proof using Rr Rt Ro. intros E c. apply ro_insert. Qed.
  Lemma ro_insert_str : forall E c, keeps R (insert_str_after_cursor E c).
  Proof using Rr Rt Ro. intros E c. apply ro_insert. Qed.
  Lemma ro_del_before : forall E, keeps R (delete_before_cursor E).
  Proof using Rr Rt Ro. intros E. unfold delete_before_cursor. kbr. Qed.
  Lemma ro_del_after : forall E, keeps R (delete_after_cursor E).
  Proof using Rr Rt Ro. intros E. unfold delete_after_cursor. kbr. Qed.
  Lemma ro_del_all_before : forall E, keeps R (delete_all_before_cursor E).
  Proof using Rr Rt Ro. intros E. unfold delete_all_before_cursor. kbr. Qed.
  Lemma ro_del_all_after : forall E, keeps R (delete_all_after_cursor E).
  Proof using Rr Rt Ro. intros E. unfold delete_all_after_cursor. kbr. Qed.
  Lemma ro_del_until : forall E n, keeps R (delete_until E n).
  Proof using Rr Rt Ro. intros E n. unfold delete_until. kbr. Qed.
  Lemma ro_del_until_inc : forall E n, keeps R (delete_until_inclusive E n).
  Proof using Rr Rt Ro. intros E n. unfold delete_until_inclusive. kbr. Qed.
  Lemma ro_del_word : forall E b, keeps R (delete_word_before_cursor E b).
  Proof using Rr Rt Ro. intros E b. unfold delete_word_before_cursor. kbr. Qed.
  Lemma ro_clear : forall E, keeps R (clear E).
  Proof using Rr Rt Ro. intros E. unfold clear. kbr. Qed.
  Hint Resolve ro_move_word ro_vi_word ro_vi_word_end ro_insert ro_insert1 ro_insert_str ro_del_before ro_del_after ro_del_all_before
    ro_del_all_after ro_del_until ro_del_until_inc ro_del_word ro_clear : brw.
  Lemma ro_undo_like : forall E f, keeps R (undo_like E f).
  Proof using Rr Rt Ro. intros E f. unfold undo_like. kbr. Qed.
  Hint Resolve ro_undo_like : brw.
  Lemma ro_undo : forall E, keeps R (ed_undo E).
  Proof using Rr Rt Ro. intro E. unfold ed_undo. kbr. Qed.
  Lemma ro_redo : forall E, keeps R (ed_redo E).
  Proof using Rr Rt Ro. intro E. unfold ed_redo. kbr. Qed.
  Lemma ro_revert : forall E, keeps R (ed_revert E).
  Proof using Rr Rt Ro. intro E. unfold ed_revert. kbr. Qed.
  Lemma ro_complete : forall E, keeps R (complete E).
  Proof using Rr Rt Ro. intros E. unfold complete. kbr. Qed.
  Lemma ro_accept : forall E, keeps R (accept_autosuggestion E).
  Proof using Rr Rt Ro. intros E. unfold accept_autosuggestion. kbr. Qed.
  Lemma ro_hist_start : forall E, keeps R (move_to_start_of_history E).
  Proof using Rr Rt Ro. intros E. unfold move_to_start_of_history. kbr. Qed.
  Lemma ro_hist_end : forall E, keeps R (move_to_end_of_history E).
  Proof using Rr Rt Ro. intros E. unfold move_to_end_of_history. kbr. Qed.
  Hint Resolve ro_undo ro_redo ro_revert ro_complete ro_accept ro_hist_start ro_hist_end : brw.
  Lemma ro_search : forall E b, keeps R (search E b).
  Proof using Rr Rt Ro Rf.
    intros E b. unfold search. apply (keeps_bind _ Rt); [|intro; kbr]. apply keeps_modify. intro s. destruct (negb (is_search s)).
    - eapply Rt; [apply Rf|apply Ro; reflexivity].
    - unfold search_step. destruct (ed_subset s); [apply Rr|]. destruct (ed_subloc s); apply Ro; reflexivity.
  Qed.
  Hint Resolve ro_search : brw.
  Lemma ro_up : forall E, keeps R (move_up E).
  Proof using Rr Rt Ro Rf.
    intros E. unfold move_up. kbr. eapply Rt; [|apply Rf]. apply Ro; reflexivity.
  Qed.
  Hint Resolve ro_up : brw.
  Lemma ro_last_arg : forall E, keeps RK (handle_last_arg_fetch E).
  Proof using Rr Rt Ro. intro E. unfold handle_last_arg_fetch. kkr. Qed.
  Hint Resolve ro_last_arg : brw.

  Definition goes_down (k : key) : bool :=
    match k with KDown => true | KCtrl c => is_char c "n" | _ => false end.
  Lemma ro_emacs_core : forall E k, goes_down k = false \/ (forall E, keeps R (move_down E)) -> keeps RK (emacs_core E k).
  Proof using Rr Rt Ro Rf.
    intros E k H. unfold emacs_core. destruct k; cbn [goes_down] in H.
    all: try (destruct H as [H|H]; [discriminate H|]; kkr; fail).
    all: try (kkr; fail).
    - unfold emacs_alt. kkr.
    - unfold emacs_ctrl. apply (keeps_bind _ (on_ed_trans _ Rt)); [kkr|intro]. apply on_lift.
      destruct H as [H|H]; [rewrite H; kbr|]. destruct (is_char c "n"); kbr; try apply H.
  Qed.

  (** Vi *)
  Lemma ro_set_vi_mode : forall m s, R s (set_vi_mode m s).
  Proof using Ro. intros m s. unfold set_vi_mode. destruct (pr_vi (ed_prompt s)); apply Ro; reflexivity. Qed.
  Lemma ro_editor_mode : forall E, keeps RK (set_editor_mode E).
  Proof using Rr Rt Ro. intro E. unfold set_editor_mode. kkr; apply ro_set_vi_mode. Qed.
  Lemma ro_buf_mut : forall f, keeps RK (buf_mut f).
  Proof using Rr Rt Ro. intro f. unfold buf_mut. kkr. Qed.
  Hint Resolve ro_editor_mode ro_buf_mut : brw.
  Lemma ro_mode_preserve : forall E m, keeps RK (set_mode_preserve_last E m).
  Proof using Rr Rt Ro. intros E m. unfold set_mode_preserve_last. kkr. Qed.
  Hint Resolve ro_mode_preserve : brw.
  Lemma ro_set_mode : forall E m, keeps RK (set_mode E m).
  Proof using Rr Rt Ro. intros E m. unfold set_mode. kkr. Qed.
  Lemma ro_pop_movement : forall E mt, keeps RK (pop_mode_after_movement E mt).
  Proof using Rr Rt Ro. intros E mt. unfold pop_mode_after_movement. kkr. Qed.
  Lemma ro_pop_mode : forall E, keeps RK (pop_mode E).
  Proof using Rr Rt Ro.
    intro E. unfold pop_mode. kkr; intros [vv ss];
    pose proof (on_lift (K:=vi) R (display E) (ro_display E) (vv, ss)) as D;
    destruct (lift (display E) (vv, ss)); auto.
  Qed.
  Lemma ro_abort : forall E, keeps RK (normal_mode_abort E).
  Proof using Rr Rt Ro. intro E. unfold normal_mode_abort. kkr. Qed.
  Lemma ro_mcr : keeps RK mcr.
  Proof using Rr Rt Ro. unfold mcr. kkr. Qed.
  Lemma ro_insert_reset : keeps RK insert_reset.
  Proof using Rr Rt Ro. unfold insert_reset. kkr. Qed.
  Hint Resolve ro_set_mode ro_pop_movement ro_pop_mode ro_abort ro_mcr ro_insert_reset : brw.
  Lemma ro_common : forall E k, k <> KDown \/ (forall E, keeps R (move_down E)) -> keeps RK (vi_common E k).
  Proof using Rr Rt Ro Rf. intros E k H. unfold vi_common. destruct k; kkr. destruct H as [H|H]; [congruence|apply H]. Qed.
  Lemma ro_to_char : forall E k m, keeps RK (vi_move_to_char E k m).
  Proof using Rr Rt Ro. intros E k m. unfold vi_move_to_char, push_cur. kkr. Qed.
  Lemma ro_tilde : forall E, keeps RK (tilde_step E).
  Proof using Rr Rt Ro. intro E. unfold tilde_step. kkr. Qed.
  Lemma ro_replace : forall E k, keeps RK (vi_replace E k).
  Proof using Rr Rt Ro. intros E k. unfold vi_replace. kkr. Qed.
  Lemma ro_finally : forall m f, keeps RK m -> keeps RK (finally m f).
  Proof using. intros m f H [v s]. unfold finally. specialize (H (v, s)). destruct (m (v, s)) as [a [v' s']|e [v' s']| |]; exact H. Qed.
  Lemma ro_g : forall E k, keeps RK (vi_g E k).
  Proof using Rr Rt Ro. intros E k. unfold vi_g, push_cur. kkr; apply ro_finally; kkr. Qed.
  Hint Resolve ro_to_char ro_tilde ro_replace ro_g : brw.
  Definition vi_down (k : key) : bool := match k with KDown => true | KChar c => is_char c "j" | _ => false end.
  Lemma ro_normal : forall rec E k, vi_down k = false -> k <> kch "." -> keeps RK (vi_normal rec E k).
  Proof using Rr Rt Ro Rf.
    intros rec E k H Hd. unfold vi_normal, push_cur.
    assert (C : forall k', vi_down k' = false -> keeps RK (vi_common E k')).
    { intros k' H'. apply ro_common. left. intros ->. discriminate. }
    destruct k as [c| | | | | | | | | | | | |]; cbn [vi_down] in H; try discriminate;
      [|kkr; apply C; reflexivity..].
    assert (D : is_char c "." = false).
    { unfold is_char. apply N.eqb_neq. intro Q. apply Hd. rewrite Q. reflexivity. }
    rewrite D, H. kkr; apply C; exact H.
  Qed.
  Lemma ro_normal_all : forall rec E k, (forall E, keeps R (move_down E)) -> (forall k, keeps RK (rec k)) -> keeps RK (vi_normal rec E k).
  Proof using Rr Rt Ro Rf.
    intros rec E k H Hr. unfold vi_normal, push_cur, vi_repeat.
    assert (C : forall k', keeps RK (vi_common E k')) by (intro; apply ro_common; auto).
    destruct k; kkr.
  Qed.
  Lemma ro_delete : forall rec E k, keeps RK (vi_delete_or_change rec E k).
  Proof using Rr Rt Ro Rf.
    intros rec E k. unfold vi_delete_or_change, push_cur.
    assert (G : is_movement_key k = true \/ kis k "0" = true \/
       (match k with KChar c => ((48 <=? c) && (c <=? 57))%N | _ => false end) = true ->
       keeps RK (vi_normal rec E k)).
    { intro M. apply ro_normal.
      - destruct k; try reflexivity; cbn in M; try (destruct M as [M|[M|M]]; discriminate).
        cbn [vi_down]. destruct (is_char c "j") eqn:J1; [unfold is_char in J1; apply N.eqb_eq in J1; subst c; destruct M as [M|[M|M]]; discriminate|].
        reflexivity.
      - intros ->. destruct M as [M|[M|M]]; discriminate. }
    apply (keeps_bind _ (on_ed_trans _ Rt)); [kkr|]. intro v.
    destruct (is_movement_key k || (kis k "0" && (v_count v =? 0)%N)) eqn:B.
    { assert (G1 : keeps RK (vi_normal rec E k)).
      { apply G. apply orb_prop in B as [B|B]; [left; exact B|right; left]. apply andb_prop in B as [B _]. exact B. }
      clear G B. kkr. }
    destruct (match k with KChar c => ((48 <=? c) && (c <=? 57))%N | _ => false end) eqn:B2.
    { apply G. auto. }
    clear G B B2. kkr.
  Qed.
  Lemma ro_insert_all : forall rec E k, (forall E, keeps R (move_down E)) -> (forall k, keeps RK (rec k)) -> keeps RK (vi_insert rec E k).
  Proof using Rr Rt Ro Rf.
    intros rec E k H Hr. unfold vi_insert, push_last.
    assert (C : forall k', keeps RK (vi_common E k')) by (intro; apply ro_common; auto).
    destruct k; kkr.
  Qed.
  Lemma ro_insert_mode : forall rec E k, match k with KDown | KEsc => False | KCtrl c => is_char c "[" = false | _ => True end ->
    keeps RK (vi_insert rec E k).
  Proof using Rr Rt Ro Rf.
    intros rec E k H. unfold vi_insert. cbv zeta.
    assert (C : forall k', k' <> KDown -> keeps RK (vi_common E k')) by (intros; apply ro_common; auto).
    destruct k; try contradiction; unfold push_last; try rewrite H; kkr; apply C; discriminate.
  Qed.
  Lemma ro_core_all : forall E k, (forall E, keeps R (move_down E)) -> keeps RK (vi_core E k).
  Proof using Rr Rt Ro Rf.
    intros E0 k0 H. unfold vi_core. apply (keeps_bind _ (on_ed_trans _ Rt)); [kkr|intro v]. generalize (vi_fuel v). intro f. clear v.
    revert E0 k0. induction f as [|f IH]; intros E k; [intro; exact I|]. cbn [vi_core_fuel].
    apply (keeps_bind _ (on_ed_trans _ Rt)); [kkr|intro v].
    destruct (vmode_of v); [apply ro_insert_all; auto|apply ro_normal_all; auto|auto with brw|apply ro_delete|auto with brw|auto with brw|apply keeps_pan].
  Qed.

  (** The counted repetition at Esc *)
  Definition insR (x y : vi * ed) : Prop :=
    vmode_of (fst x) = MInsert /\ Forall plain (v_last (fst x)) ->
    (vmode_of (fst y) = MInsert /\ Forall plain (v_last (fst y))) /\ R (snd x) (snd y).
  Lemma insR_refl : refl insR. Proof using Rr. intros x H. split; [exact H|apply Rr]. Qed.
  Lemma insR_trans : trans insR.
  Proof using Rt.
    intros x y z H1 H2 H. destruct (H1 H) as [H3 H4]. destruct (H2 H3) as [H5 H6]. split; [exact H5|].
    eapply Rt; eassumption.
  Qed.
  Lemma insR_lift : forall {A} (m : ME A), keeps R m -> keeps insR (lift m).
  Proof using.
    intros A m H [v s]. unfold lift. specialize (H s). destruct (m s) as [a s'|e s'| |]; auto;
      intros H1; (split; assumption).
  Qed.
  Lemma insR_modk : forall f, (forall v, v_stack (f v) = v_stack v) ->
    (forall v, Forall plain (v_last v) -> Forall plain (v_last (f v))) -> keeps insR (modk f).
  Proof using Rr.
    intros f H1 H2 [v s]. intros [H3 H4]. split; [|apply Rr]. unfold vmode_of in *. cbn [fst] in *. rewrite H1. auto.
  Qed.
  Lemma insR_reset : keeps insR insert_reset.
  Proof using Rr Rt Ro.
    unfold insert_reset. apply (keeps_bind _ insR_trans); [intros [v s]; apply insR_refl|intro v].
    apply (keeps_when _ insR_refl). unfold buf_mut.
    apply (keeps_bind _ insR_trans); [apply insR_lift; auto with brw|intros _].
    apply (keeps_bind _ insR_trans); [apply insR_lift; auto with brw|intros _].
    apply insR_modk; intros; [reflexivity|constructor].
  Qed.
  Lemma insR_push : forall k, plain k -> keeps insR (push_last k).
  Proof using Rr.
    intros k H. apply insR_modk; intros; [reflexivity|]. cbn. apply Forall_app. split; [assumption|repeat constructor; assumption].
  Qed.
  Lemma insR_typed : forall f E k, plain k -> keeps insR (vi_core_fuel f E k).
  Proof using Rr Rt Ro Rf.
    intros [|f] E k Hk; [intro; exact I|]. cbn [vi_core_fuel]. intros [v s]. unfold bind at 1. cbn [getk].
    destruct (vmode_of v) eqn:M;
      try (match goal with |- match ?o with _ => _ end => destruct o; auto; intros [C _]; cbn [fst] in C; rewrite M in C; discriminate end).
    assert (G : keeps insR (vi_insert (vi_core_fuel f E) E k)); [|exact (G (v, s))].
    unfold vi_insert. cbv zeta.
    destruct k; cbn [plain] in Hk; try contradiction; unfold vi_common;
      repeat match goal with
      | |- keeps _ (bind _ _) => apply (keeps_bind _ insR_trans); [|intro]
      | |- keeps _ insert_reset => exact insR_reset
      | |- keeps _ (push_last _) => apply insR_push; exact I
      | |- keeps _ (lift _) => apply insR_lift; auto with brw
      | |- keeps _ (modk _) => apply insR_modk; intros; [reflexivity|assumption]
      end.
  Qed.
  Lemma insR_mfor : forall f E l, Forall plain l -> keeps insR (mfor l (vi_core_fuel f E)).
  Proof using Rr Rt Ro Rf.
    intros f E l H. induction H; cbn [mfor]; [apply (keeps_ret _ insR_refl)|].
    apply (keeps_bind _ insR_trans); [apply insR_typed; assumption|intros _; assumption].
  Qed.
  Lemma ro_esc : forall f E v s, vmode_of v = MInsert -> Forall plain (v_last v) ->
    after RK (vi_insert (vi_core_fuel f E) E KEsc) (v, s).
  Proof using Rr Rt Ro Rf.
    intros f E v s M P. unfold vi_insert. cbv zeta.
    assert (Loop : forall n, keeps insR (Nloop n
          (v0 <- getk ;; modk (vset_last []) ;;; mfor (v_last v0) (vi_core_fuel f E) ;;; ret true))).
    { intro n. apply (keeps_Nloop _ insR_refl insR_trans). intros [v1 s1].
      unfold bind at 1. cbn [getk].
      destruct (Forall_dec plain) with (l := v_last v1) as [F|F].
      { intros []; cbn [plain]; auto. }
      - match goal with |- match ?m _ with _ => _ end => assert (G : keeps insR m); [|exact (G (v1, s1))] end.
        apply (keeps_bind _ insR_trans); [apply insR_modk; intros; [reflexivity|constructor]|intros _].
        apply (keeps_bind _ insR_trans); [apply insR_mfor; exact F|intros _]. apply (keeps_ret _ insR_refl).
      - match goal with |- match ?o with _ => _ end => destruct o; auto; intros [_ C]; contradiction end. }
    unfold after, bind at 1. cbn [getk].
    set (rest := lift (move_cursor_left E 1) ;;; pop_mode E).
    assert (Hr : keeps RK rest) by (unfold rest; kkr).
    assert (F : forall m : MV unit, keeps insR m -> after RK (m ;;; rest) (v, s)).
    { intros m Hm. unfold after, bind. specialize (Hm (v, s)). destruct (m (v, s)) as [a [v1 s1]|e [v1 s1]| |]; auto.
      - destruct (Hm (conj M P)) as [_ S1]. specialize (Hr (v1, s1)).
        destruct (rest (v1, s1)) as [b [v2 s2]|e [v2 s2]| |]; auto; (eapply Rt; [exact S1|exact Hr]).
      - exact (proj2 (Hm (conj M P))). }
    apply F. apply (keeps_when _ insR_refl).
    apply (keeps_bind _ insR_trans); [apply insR_modk; intros; [reflexivity|assumption]|intros _].
    apply (keeps_bind _ insR_trans); [apply Loop|intros _].
    apply insR_modk; intros; [reflexivity|assumption].
  Qed.
  Lemma ro_vi_core : forall E k n v s, J n v -> vi_down k = false -> k <> kch "." -> after RK (vi_core E k) (v, s).
  Proof using Rr Rt Ro Rf.
    intros E k n v s HJ Hk Hd. unfold vi_core, after, bind at 1. cbn [getk].
    destruct (vi_fuel v) as [|f]; [exact I|]. cbn [vi_core_fuel]. unfold bind at 1. cbn [getk].
    assert (G : forall m : MV unit, keeps RK m -> after RK m (v, s)) by (intros m Hm; exact (Hm (v, s))).
    destruct (vmode_of v) eqn:M.
    - destruct k; try discriminate Hk; try (apply G, ro_insert_mode; exact I).
      + destruct (is_char c "[") eqn:B; [|apply G, ro_insert_mode; exact B].
        pose proof (ro_esc f E v s M (j_last _ _ HJ)) as H. unfold vi_insert in *. rewrite B. exact H.
      + apply ro_esc; [exact M|exact (j_last _ _ HJ)].
    - apply G, ro_normal; assumption.
    - apply G. apply ro_replace.
    - apply G. apply ro_delete.
    - apply G. apply ro_to_char.
    - apply G. apply ro_g.
    - exact I.
  Qed.

  (** * One key press *)
  Lemma ro_handle : forall {K} (core : env -> key -> MK K unit) E k x,
    k <> KChar c_nl \/ keeps R (handle_newline E) -> after RK (core E (match k with KCtrl c => if is_char c "h" then KBackspace else k | _ => k end)) x ->
    match handle_key core E k x with ORet _ y => R (snd x) (snd y) | _ => True end.
  Proof using Rr Rt Ro Rf.
    intros K core E k [kk s] Hn H. unfold handle_key, bind at 1. cbn [gete].
    unfold bind at 1. destruct (cur_buf s) as [b|] eqn:Hb; [|exact I]. cbv beta iota zeta.
    set (k' := match k with KCtrl c => if is_char c "h" then KBackspace else k | _ => k end) in *.
    assert (Hk : k' = k \/ k' = KBackspace) by (unfold k'; destruct k; auto; destruct (is_char c "h"); auto).
    clearbody k'.
    assert (O : after RK (core E k' ;;; mod_ed skip_completions_hint ;;; ret false) (kk, s)).
    { apply after_bind; [apply (on_ed_trans _ Rt)|exact H|]. intro. kkr. }
    assert (F : forall m : MK K bool, after RK m (kk, s) ->
      match (done <- m ;; if e_wok E then ret done else fail EOther) (kk, s) with ORet _ y => R s (snd y) | _ => True end).
    { intros m Hm. unfold bind. unfold after in Hm. destruct (m (kk, s)) as [a z| | |]; try exact I.
      destruct (e_wok E); [exact Hm|exact I]. }
    assert (Fe : forall (m : MK K bool) e, match (done <- (m ;;; (fail e : MK K bool)) ;; if e_wok E then ret done else fail EOther) (kk, s) with
        ORet _ y => R s (snd y) | _ => True end).
    { intros m e. unfold bind, fail. destruct (m (kk, s)); exact I. }
    assert (G : forall m : MK K bool, keeps RK m -> after RK m (kk, s)) by (intros m Hm; exact (Hm (kk, s))).
    cbn [snd]. destruct k'; try (apply F; exact O).
    - destruct (N.eqb c c_tab); [apply F, G; kkr|]. destruct (N.eqb c c_nl) eqn:Ec; [|apply F; exact O].
      apply N.eqb_eq in Ec. subst c. destruct Hk as [<-|Hk]; [|discriminate]. destruct Hn as [Hn|Hn]; [congruence|].
      apply F, G. apply on_lift. exact Hn.
    - destruct (is_char c "c"); [apply Fe|]. destruct (is_char c "d" && buf_is_empty b); [apply Fe|].
      destruct (is_char c "f" && showing_autosuggestion s); [apply F, G; kkr|].
      destruct (is_char c "r"); [apply F, G; kkr|]. destruct (is_char c "s"); [apply F, G; kkr|]. apply F; exact O.
    - destruct (showing_autosuggestion s); [|apply F; exact O]. apply F. unfold after, bind at 1.
      destruct (cursor_is_at_end_of_line s) as [[|]|]; [|exact O|exact I].
      apply (G (lift (accept_autosuggestion E) ;;; ret false)). kkr.
  Qed.

  (** * Keys that look at the history *)
  Lemma ro_up_reads : forall E s, is_search s = false ->
    match move_up E s with ORet _ s' | OErr _ s' => R (freshen_history (set_hvalid false s)) s' | _ => True end.
  Proof using Rr Rt Ro.
    intros E s Hs. unfold move_up. rewrite bind_get, Hs, bind_modify. generalize (freshen_history (set_hvalid false s)). clear s Hs. intro s.
    match goal with |- match ?m s with _ => _ end => assert (G : keeps R m); [kbr|exact (G s)] end.
  Qed.
  Lemma ro_search_reads : forall E b s, is_search s = false ->
    match search E b s with ORet _ s' | OErr _ s' => R (refresh_search b (freshen_history s)) s' | _ => True end.
  Proof using Rt Ro.
    intros E b s Hs. unfold search. rewrite bind_modify, Hs. cbn [negb]. apply (ro_display E).
  Qed.

  Lemma ro_newline_from : forall E s, match handle_newline E s with ORet _ s' | OErr _ s' => R (set_fresh false s) s' | _ => True end.
  Proof using Rr Rt Ro.
    intros E s. unfold handle_newline. rewrite bind_modify. generalize (set_fresh false s). clear s. intro s.
    match goal with |- match ?m s with _ => _ end => assert (G : keeps R m); [kbr|exact (G s)] end.
  Qed.
  Lemma ro_down_from : forall E s, is_search s = false -> data (ed_new s) = [] -> ed_loc s = None ->
    match move_down E s with ORet _ s' | OErr _ s' => exists s1, ed_fresh s1 = false /\ R s1 s' | _ => True end.
  Proof using Rr Rt Ro.
    intros E s Hs Hn Hl. unfold move_down. rewrite bind_get, Hs, bind_modify, bind_get. unfold num_chars. edsimp. rewrite Hn. cbn [length Nat.ltb Nat.leb].
    rewrite Hl. unfold bind at 1. unfold bind at 1, modify at 1 2.
    match goal with |- match move_cursor_to_end_of_line E ?x with _ => _ end => pose proof (ro_move_end E x) as G; set (s1 := x) in *;
      assert (F : ed_fresh s1 = false) by reflexivity; clearbody s1 end.
    destruct (move_cursor_to_end_of_line E s1); auto; exists s1; auto.
  Qed.

  (** * Keys that forget the freshness *)
  Section Down.
    Hypothesis Rd : forall s, R s (set_fresh false s).
    Lemma ro_down : forall E, keeps R (move_down E).
    Proof using Rr Rt Ro Rf Rd.
      intro E. unfold move_down. kbr; try apply Rd. eapply Rt; [|apply Rd]. apply Ro; reflexivity.
    Qed.
    Lemma ro_newline : forall E, keeps R (handle_newline E).
    Proof using Rr Rt Ro Rd. intro E. unfold handle_newline. kbr. apply Rd. Qed.
    Lemma ro_emacs_all : forall E k, keeps RK (emacs_core E k).
    Proof using Rr Rt Ro Rf Rd. intros. apply ro_emacs_core. right. exact ro_down. Qed.
    Lemma ro_vi_all : forall E k, keeps RK (vi_core E k).
    Proof using Rr Rt Ro Rf Rd. intros. apply ro_core_all. exact ro_down. Qed.
    Lemma ro_handle_all : forall {K} (core : env -> key -> MK K unit) E k,
      (forall k, keeps RK (core E k)) -> keeps RK (handle_key core E k).
    Proof using Rr Rt Ro Rf Rd.
      intros K core E k H. pose proof ro_newline. unfold handle_key. kkr.
      - intros [k0 s0]. destruct (cur_buf _); [apply Rr|exact I].
      - intros [k0 s0]. destruct (cursor_is_at_end_of_line _); [apply Rr|exact I].
    Qed.
    Lemma ro_run_all : forall {K} (core : env -> key -> MK K unit) l,
      (forall E k, keeps RK (core E k)) -> keeps RK (run_keys core l).
    Proof using Rr Rt Ro Rf Rd.
      intros K core l H. induction l as [|[E k] l IH]; cbn [run_keys]; [kkr|].
      apply (keeps_bind _ (on_ed_trans _ Rt)); [apply ro_handle_all; auto|]. intros [|]; kkr.
    Qed.
  End Down.
  Lemma ro_vi_init : forall E, keeps RK (vi_init E).
  Proof using Rr Rt Ro. intro E. unfold vi_init. kkr; apply ro_set_vi_mode. Qed.
End Gen.
