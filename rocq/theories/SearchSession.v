(** What a running search shows after every key (C74): the assertions [pending] (between a change
    and the redraw) and [exact_] in the logic of SuggestSession.v. *)
From Verif Require Import Base Utf8 BufferModel UtilModel HistoryModel BufferSpec HistorySpec HistoryProofs EditorState EditorModel
  KeymapModel ViModel MonadLemmas EditorLemmas EditorSpec CursorProofs EditorProofs SuggestProofs SuggestSession SearchProofs SearchSpec.
Local Open Scope monad_scope.

(** The list of matches belongs to the term, and a match is chosen if there is one. *)
Definition listed (s : ed) : Prop :=
  ed_subset s = search_index (ed_history s) (ed_new s) /\
  match ed_subloc s with Some p => p < length (ed_subset s) | None => ed_subset s = [] end.
Definition chosen (s : ed) : Prop :=
  match search_history_loc s with
  | Some i => exists b, hist_get (ed_history s) i = Val b /\ ed_sugg s = Some b
  | None => ed_sugg s = None
  end.
Definition pending (s : ed) : Prop := is_search s = true -> ed_changed s = true \/ (listed s /\ ed_hvalid s = false).
Definition exact_ (s : ed) : Prop := pending s /\ (is_search s = true -> listed s /\ chosen s).
Lemma exact_pending : forall s, exact_ s -> pending s. Proof. intros s H. apply H. Qed.
Lemma nosearch_pending : forall s, nosearch s -> pending s. Proof. intros s H Q. unfold nosearch in H. congruence. Qed.
Lemma nosearch_exact : forall s, nosearch s -> exact_ s.
Proof. intros s H. split; [apply nosearch_pending; exact H|]. intro Q. unfold nosearch in H. congruence. Qed.

Lemma listed_selected : forall s, listed s -> chosen s -> selected s (search_history_loc s).
Proof.
  intros s [L1 L2] C. split; [reflexivity|].
  assert (M : forall i, In i (ed_subset s) <-> matches s i).
  { intro i. rewrite L1, search_index_data. exact (proj2 (search_index_spec (ed_history s) (data (ed_new s))) i). }
  unfold chosen in C. destruct (search_history_loc s) as [i|] eqn:Ei.
  - destruct C as [b [Hb Hg]]. exists b. split; [exact Hg|]. split; [apply hist_get_texts; exact Hb|].
    apply M. unfold search_history_loc in Ei. destruct (ed_subloc s); [|discriminate]. apply nth_error_In in Ei. exact Ei.
  - split; [exact C|]. intros i Hi. apply M in Hi. unfold search_history_loc in Ei. destruct (ed_subloc s) as [p|].
    + apply nth_error_None in Ei. lia.
    + rewrite L2 in Hi. destruct Hi.
Qed.
Lemma refresh_listed : forall fwd s, listed (refresh_search fwd s).
Proof. intros fwd s. split; [reflexivity|apply refresh_subloc]. Qed.
Lemma refreshed_listed : forall s, pending s -> is_search s = true -> listed (refreshed s) /\ ed_hvalid (refreshed s) = false.
Proof.
  intros s H Q. unfold refreshed. rewrite Q. cbn [andb]. destruct (ed_changed s) eqn:C.
  - split; [apply refresh_listed|reflexivity].
  - destruct (H Q) as [D|D]; [congruence|exact D].
Qed.
Lemma shown_pending : forall s g c tcl cb tty, is_search s = true -> listed s -> ed_hvalid s = false ->
  current_autosuggestion s = Val g -> exact_ (shown s g c tcl cb tty).
Proof.
  intros s g c tcl cb tty Q L V G.
  assert (C : chosen (shown s g c tcl cb tty)).
  { unfold current_autosuggestion in G. rewrite V, Q in G.
    change (match search_history_loc s with
            | Some i => exists b, hist_get (ed_history s) i = Val b /\ g = Some b
            | None => g = None end).
    destruct (search_history_loc s) as [i|]; [|injection G as <-; reflexivity].
    destruct (hist_get (ed_history s) i) as [x|]; [|discriminate]. injection G as <-. exists x. split; reflexivity. }
  assert (L' : listed (shown s g c tcl cb tty)) by exact L.
  split; [intros _; right; split; [exact L'|exact V]|intros _; split; assumption].
Qed.
Lemma tri_display : forall E, tri pending (display E) exact_.
Proof.
  intros E s Hd. pose proof (display_out E s) as H. destruct (display E s) as [u s'|e s'|p|]; auto.
  destruct H as [g [b [tcl [cb [tty [G [_ ->]]]]]]].
  destruct (is_search s) eqn:Q.
  - destruct (refreshed_listed s Hd Q) as [L V]. apply shown_pending; try assumption. rewrite refreshed_search. exact Q.
  - apply nosearch_exact. unfold nosearch. change (is_search (refreshed s) = false). rewrite refreshed_search. exact Q.
Qed.
Lemma tri_with : forall {A} (f : buffer -> res (A * buffer)) P, tri P (with_cur_mut f) pending.
Proof.
  intros A f P. apply (tri_bind _ (fun s => ed_changed s = true)).
  - intros s H. unfold cur_prep. edsimp. destruct (ed_loc s) eqn:L.
    + destruct (ed_hvalid s); [reflexivity|]. destruct (hist_get _ _); [|exact I]. destruct (copy_buffer _ _); [|exact I]. reflexivity.
    + reflexivity.
  - intros _ s H. unfold cur_upd. destruct (ed_loc s) eqn:L.
    + destruct (f (ed_hist s)) as [[a b]|]; [|exact I]. intros _. left. exact H.
    + destruct (f (ed_new s)) as [[a b]|]; [|exact I]. intros _. left. exact H.
Qed.
Lemma search_index_same : forall h b b', data b' = data b -> search_index h b' = search_index h b.
Proof. intros h b b' H. rewrite (search_index_data h b), (search_index_data h b'), H. reflexivity. Qed.
Lemma tri_with_same : forall {A} (f : buffer -> res (A * buffer)),
  (forall b a b', f b = Val (a, b') -> data b' = data b) -> tri exact_ (with_cur_mut f) exact_.
Proof.
  intros A f F. apply (tri_bind _ (fun s => ed_changed s = true /\ (is_search s = true -> listed s /\ chosen s))).
  - intros s [H G]. unfold cur_prep. edsimp. destruct (ed_loc s) eqn:L.
    + destruct (ed_hvalid s); [split; [reflexivity|exact G]|]. destruct (hist_get _ _); [|exact I].
      destruct (copy_buffer _ _); [|exact I]. split; [reflexivity|exact G].
    + split; [reflexivity|exact G].
  - intros _ s [H G]. unfold cur_upd. destruct (ed_loc s) eqn:L.
    + destruct (f (ed_hist s)) as [[a b]|]; [|exact I]. split; [intros _; left; exact H|exact G].
    + destruct (f (ed_new s)) as [[a b]|] eqn:Ef; [|exact I]. split; [intros _; left; exact H|]. intro Q. destruct (G Q) as [[G1 G2] G3].
      split; [|exact G3]. split; [|exact G2]. edsimp. rewrite G1. symmetry. apply search_index_same. exact (F _ _ _ Ef).
Qed.
Lemma tri_tty : forall E t (P : ed -> Prop), (forall s o, P s -> P (set_tty o s)) -> tri P (tty_write E t) P.
Proof. intros E t P F s H. unfold tty_write. destruct (e_wok E); [apply F; exact H|exact I]. Qed.
Lemma tri_tty1 : forall E t, tri exact_ (tty_write E t) exact_.
Proof. intros E t. apply tri_tty. intros s o H. exact H. Qed.
Lemma tri_tty2 : forall E t, tri pending (tty_write E t) pending.
Proof. intros E t. apply tri_tty. intros s o H. exact H. Qed.
Lemma tri_display_impl : forall E b, tri exact_ (display_impl E b) exact_.
Proof.
  intros E b s H. pose proof (display_impl_out E b s) as O. destruct (display_impl E b s) as [a s'|e s'|p|]; auto.
  destruct O as [? [tcl [cb [tty [_ ->]]]]]. exact H.
Qed.
Lemma freshen_nosearch : forall s, nosearch s -> nosearch (freshen_history s).
Proof. intros s H. unfold freshen_history. destruct (_ && _); exact H. Qed.

Create HintDb sea.
#[export] Hint Resolve tri_display tri_with tri_get_cur tri_tty1 tri_tty2 tri_display_impl exact_pending nosearch_pending nosearch_exact nosearch_display : sea.

Ltac scl := (* a change of the state that concerns neither assertion *)
  let s := fresh "s" in let H := fresh "H" in
  intros s H; cbv beta;
  first [ exact H
        | (apply exact_pending in H; exact H)
        | (apply nosearch_pending; exact H)
        | (apply nosearch_exact; exact H)
        | (apply nosearch_pending; reflexivity)
        | reflexivity
        | (apply freshen_nosearch; exact H)
        | (let Q := fresh in intro Q; destruct (H Q) as [?|[? ?]]; [left; assumption|right; split; [assumption|reflexivity]])
        | (unfold set_vi_mode; destruct (pr_vi (ed_prompt s)); exact H) ].
Ltac sstep :=
  cbv beta zeta;
  match goal with
  | |- tri ?P (ret _) ?P => apply tri_ret
  | |- tri exact_ (ret _) pending => intros ? H; apply H
  | |- tri _ (fail _) _ => apply tri_fail
  | |- tri _ (pan _) _ => apply tri_pan
  | |- tri ?P get ?P => apply tri_get
  | |- tri ?P (gets _) ?P => apply tri_gets
  | |- tri ?P (liftr _) ?P => apply tri_liftr
  | |- tri _ (modify _) _ => apply tri_modify; solve [scl]
  | |- tri ?P (when _ _) ?P => apply tri_when
  | |- tri _ (when _ _) _ => apply tri_when'; [solve [scl]|]
  | |- tri _ (match ?x with _ => _ end) _ => destruct x
  | |- tri _ (bind _ _) _ => idtac
  | |- tri ?P _ ?P => solve [auto with sea]
  | |- tri _ _ _ => solve [auto with sea | eapply tri_pre; [|solve [auto with sea]]; scl
                           | eapply tri_post; [|solve [auto with sea]]; scl
                           | apply (tri_pre _ pending); [scl|]; apply (tri_post _ _ exact_); [scl|]; auto with sea]
  end.
Ltac sea_go :=
  cbv beta zeta;
  lazymatch goal with
  | |- tri ?P (bind _ _) _ =>
      first [ apply (tri_bind _ nosearch); [solve [sea_go]|intro]
            | apply (tri_bind _ exact_); [solve [sea_go]|intro]
            | apply (tri_bind _ pending); [solve [sea_go]|intro] ]; sea_go
  | |- tri _ _ _ => sstep; sea_go
  | |- _ => idtac
  end.

Lemma sx_move_end : forall E, tri pending (move_cursor_to_end_of_line E) exact_.
Proof. intro E. unfold move_cursor_to_end_of_line. sea_go. Qed.
Lemma sx_move_start : forall E, tri pending (move_cursor_to_start_of_line E) exact_.
Proof. intro E. unfold move_cursor_to_start_of_line. sea_go. Qed.
Lemma sx_move_to : forall E n, tri pending (move_cursor_to E n) exact_.
Proof. intros E n. unfold move_cursor_to. sea_go. Qed.
Lemma sx_move_left : forall E n, tri pending (move_cursor_left E n) exact_.
Proof. intros E n. unfold move_cursor_left. sea_go. Qed.
Lemma sx_move_right : forall E n, tri pending (move_cursor_right E n) exact_.
Proof. intros E n. unfold move_cursor_right. sea_go. Qed.
Lemma sx_insert : forall E t, tri pending (insert_chars_after_cursor E t) exact_.
Proof. intros E t. unfold insert_chars_after_cursor. sea_go. Qed.
Lemma sx_insert1 : forall E c, tri pending (insert_after_cursor E c) exact_.
Proof. intros E c. apply sx_insert. Qed.
Lemma sx_insert_str : forall E c, tri pending (insert_str_after_cursor E c) exact_.
Proof. intros E c. apply sx_insert. Qed.
Lemma sx_del_before : forall E, tri pending (delete_before_cursor E) exact_.
Proof. intros E. unfold delete_before_cursor. sea_go. Qed.
Lemma sx_del_after : forall E, tri pending (delete_after_cursor E) exact_.
Proof. intros E. unfold delete_after_cursor. sea_go. Qed.
Lemma sx_del_all_before : forall E, tri pending (delete_all_before_cursor E) exact_.
Proof. intros E. unfold delete_all_before_cursor. sea_go. Qed.
Lemma sx_del_all_after : forall E, tri pending (delete_all_after_cursor E) exact_.
Proof. intros E. unfold delete_all_after_cursor. sea_go. Qed.
Lemma sx_del_until : forall E n, tri pending (delete_until E n) exact_.
Proof. intros E n. unfold delete_until. sea_go. Qed.
Lemma sx_del_until_inc : forall E n, tri pending (delete_until_inclusive E n) exact_.
Proof. intros E n. unfold delete_until_inclusive. sea_go. Qed.
Lemma sx_del_word : forall E b, tri pending (delete_word_before_cursor E b) exact_.
Proof. intros E b. unfold delete_word_before_cursor. sea_go. Qed.
Lemma sx_clear : forall E, tri pending (clear E) exact_.
Proof. intros E. unfold clear. sea_go. Qed.
#[export] Hint Resolve sx_move_end sx_move_start sx_move_to sx_move_left sx_move_right
  sx_insert sx_insert1 sx_insert_str sx_del_before sx_del_after sx_del_all_before
  sx_del_all_after sx_del_until sx_del_until_inc sx_del_word sx_clear : sea.

Lemma sx_undo_like : forall E f, tri pending (undo_like E f) exact_.
Proof. intros E f. unfold undo_like. sea_go. Qed.
#[export] Hint Resolve sx_undo_like : sea.
Lemma sx_undo : forall E, tri pending (ed_undo E) exact_.
Proof. intro E. unfold ed_undo. sea_go. Qed.
Lemma sx_redo : forall E, tri pending (ed_redo E) exact_.
Proof. intro E. unfold ed_redo. sea_go. Qed.
Lemma sx_revert : forall E, tri pending (ed_revert E) exact_.
Proof. intro E. unfold ed_revert. sea_go. Qed.
Lemma step_pending : forall b s, pending s -> pending (search_step b s).
Proof.
  intros b s H. unfold search_step. destruct (ed_subset s) eqn:L; [exact H|]. destruct (ed_subloc s) as [p|] eqn:P.
  - intro Q. destruct (H Q) as [C|[[L1 L2] V]]; [left; exact C|right]. split; [|exact V]. split; [exact L1|].
    rewrite P in L2. edsimp. rewrite L in *. cbn [length] in *. destruct b.
    + destruct (p <? S (length l) - 1) eqn:F; [apply Nat.ltb_lt in F; lia|lia].
    + destruct (0 <? p); lia.
  - intro Q. destruct (H Q) as [C|[[L1 L2] V]]; [left; exact C|right]. split; [|exact V]. split; [exact L1|].
    rewrite P in L2. exact L2.
Qed.
Lemma sx_search : forall E b, tri pending (search E b) exact_.
Proof.
  intros E b. unfold search. apply (tri_bind _ pending); [|intro; sea_go].
  apply tri_modify. intros s H. destruct (negb (is_search s)).
  - intro. right. split; [apply refresh_listed|reflexivity].
  - apply step_pending. exact H.
Qed.
#[export] Hint Resolve sx_undo sx_redo sx_revert sx_search : sea.
Lemma sx_move_up : forall E, tri pending (move_up E) exact_.
Proof.
  intros E. unfold move_up. apply tri_get_eq. intros s0 H. destruct (is_search s0) eqn:Q.
  - apply (tri_pre _ pending); [intros s ->; exact H|apply sx_search].
  - apply (tri_pre _ nosearch); [intros s ->; exact Q|]. sea_go.
Qed.
Lemma sx_move_down : forall E, tri pending (move_down E) exact_.
Proof.
  intros E. unfold move_down. apply tri_get_eq. intros s0 H. destruct (is_search s0) eqn:Q.
  - apply (tri_pre _ pending); [intros s ->; exact H|apply sx_search].
  - apply (tri_pre _ nosearch); [intros s ->; exact Q|]. sea_go.
Qed.
Lemma sx_hist_start : forall E, tri pending (move_to_start_of_history E) exact_.
Proof. intros E. unfold move_to_start_of_history. sea_go. Qed.
Lemma sx_hist_end : forall E, tri pending (move_to_end_of_history E) exact_.
Proof. intros E. unfold move_to_end_of_history. sea_go. Qed.
Lemma sx_accept : forall E, tri pending (accept_autosuggestion E) exact_.
Proof. intros E. unfold accept_autosuggestion. sea_go. Qed.
#[export] Hint Resolve sx_move_up sx_move_down sx_hist_start sx_hist_end sx_accept : sea.

Lemma sx_complete : forall E, tri exact_ (complete E) exact_.
Proof.
  intros E. unfold complete. apply (tri_bind _ exact_); [sea_go|intro s]. destruct (ed_hint s) as [[comps i]|]; [sea_go|].
  apply (tri_bind _ exact_); [sea_go|intro wr]. apply (tri_bind _ exact_); [|intro; sea_go].
  apply tri_with_same. intros b a b'. destruct wr as [[st en]|]; cbn [rbind].
  - destruct (buf_range b st en); cbn [rbind]; congruence.
  - congruence.
Qed.
Lemma accept_nosearch' : forall E, tri pending (accept_autosuggestion E) nosearch.
Proof.
  intros E. unfold accept_autosuggestion, move_cursor_to_end_of_line. apply (tri_bind _ pending); [sea_go|intro s].
  apply (tri_bind _ pending); [sea_go|intro]. apply (tri_bind _ nosearch).
  { intros x _. reflexivity. }
  intro. apply (tri_bind _ nosearch); [apply tri_get_cur|intro]. apply (tri_bind _ nosearch); [|intro; apply nosearch_display].
  intros x Hx. exact Hx.
Qed.
Lemma sx_newline : forall E, tri exact_ (handle_newline E) exact_.
Proof.
  intros E. unfold handle_newline. apply (tri_bind _ exact_); [sea_go|intro]. apply tri_get_eq. intros s Hs.
  apply (tri_bind _ (fun s => exact_ s /\ nosearch s)).
  { destruct (is_search s) eqn:Q; cbn [when].
    - apply (tri_pre _ pending); [intros x ->; apply Hs|]. apply tri_and; [apply sx_accept|apply accept_nosearch'].
    - intros x ->. split; [exact Hs|exact Q]. }
  intro. apply (tri_bind _ exact_).
  { intros x [Hx Hn]. apply nosearch_exact. reflexivity. }
  intro. sea_go.
Qed.
#[export] Hint Resolve sx_complete sx_newline : sea.

(** * Key maps *)
Ltac seak :=
  cbv beta zeta;
  match goal with
  | |- tri _ (bind _ _) _ => apply (tri_bind _ (on exact_)); [|intro]
  | |- tri _ (ret _) _ => apply tri_ret
  | |- tri _ (fail _) _ => apply tri_fail
  | |- tri _ (pan _) _ => apply tri_pan
  | |- tri _ (liftr _) _ => apply tri_liftr
  | |- tri _ (when _ _) _ => apply tri_when
  | |- tri _ (lift _) _ => apply tri_lift; sea_go
  | |- tri _ getk _ => apply tri_getk
  | |- tri _ gete _ => apply tri_gete
  | |- tri _ (modk _) _ => apply tri_modk
  | |- tri _ (mod_ed _) _ => apply tri_mod_ed; first [solve [scl] | idtac]
  | |- tri _ (Nloop _ _) _ => apply tri_Nloop
  | |- tri _ (mfor _ _) _ => apply tri_mfor; intro
  | H : _ |- tri _ _ _ => solve [apply H]
  | |- tri _ (match ?x with _ => _ end) _ => destruct x
  | |- tri _ _ _ => solve [auto with sea]
  end.
Ltac seaks := repeat seak.
Notation exactK := (on exact_) (only parsing).

Lemma sx_handle : forall {K} (core : env -> key -> MK K unit), (forall E k, tri exactK (core E k) exactK) ->
  forall E k, tri exactK (handle_key core E k) exactK.
Proof.
  intros K core H E k. unfold handle_key. apply (tri_bind _ exactK); [seaks|intro s].
  apply (tri_bind _ exactK); [intros x Hx; destruct (cur_buf s); [exact Hx|exact I]|intro e]. cbv zeta.
  apply (tri_bind _ exactK); [|intro; seaks].
  destruct (match k with KCtrl c => if is_char c "h" then KBackspace else k | _ => k end); try solve [seaks].
  destruct (showing_autosuggestion s); [|seaks].
  apply (tri_bind _ exactK); [intros x Hx; destruct (cursor_is_at_end_of_line s); [exact Hx|exact I]|intro; seaks].
Qed.
Lemma sx_run : forall {K} (core : env -> key -> MK K unit), (forall E k, tri exactK (core E k) exactK) ->
  forall l, tri exactK (run_keys core l) exactK.
Proof.
  intros K core H l. induction l as [|[E k] l IH]; cbn [run_keys]; [apply tri_ret|].
  apply (tri_bind _ exactK); [apply sx_handle; exact H|]. intros [|]; [apply tri_ret|exact IH].
Qed.

Lemma sx_emacs_word : forall E b, tri exact_ (emacs_move_word E b) exact_.
Proof. intros E b. unfold emacs_move_word. sea_go. Qed.
#[export] Hint Resolve sx_emacs_word : sea.
Lemma sx_last_arg : forall E, tri exactK (handle_last_arg_fetch E) exactK.
Proof. intro E. unfold handle_last_arg_fetch. seaks. Qed.
#[export] Hint Resolve sx_last_arg : sea.
Lemma sx_emacs_core : forall E k, tri exactK (emacs_core E k) exactK.
Proof. intros E k. unfold emacs_core, emacs_ctrl, emacs_alt. seaks. Qed.

Lemma group_same : forall f, f = start_undo_group \/ f = end_undo_group -> tri exactK (buf_mut f) exactK.
Proof.
  intros f H. unfold buf_mut. apply tri_lift, tri_with_same. intros b a b'. unfold pure_op. intro Q. injection Q as _ <-.
  destruct H as [-> | ->]; [unfold start_undo_group|unfold end_undo_group]; reflexivity.
Qed.

Lemma set_vi_mode_exact : forall m s, exact_ s -> exact_ (set_vi_mode m s).
Proof. intros m s H. unfold set_vi_mode. destruct (pr_vi (ed_prompt s)); exact H. Qed.

Lemma sx_set_editor_mode : forall E, tri exactK (set_editor_mode E) exactK.
Proof. intro E. unfold set_editor_mode. seaks; apply set_vi_mode_exact. Qed.
#[export] Hint Resolve sx_set_editor_mode : sea.
Lemma sx_buf_start : tri exactK (buf_mut start_undo_group) exactK.
Proof. apply group_same. left. reflexivity. Qed.
Lemma sx_buf_end : tri exactK (buf_mut end_undo_group) exactK.
Proof. apply group_same. right. reflexivity. Qed.
#[export] Hint Resolve sx_buf_start sx_buf_end : sea.
Lemma sx_smpl : forall E m, tri exactK (set_mode_preserve_last E m) exactK.
Proof. intros E m. unfold set_mode_preserve_last. seaks. Qed.
#[export] Hint Resolve sx_smpl : sea.
Lemma sx_set_mode : forall E m, tri exactK (set_mode E m) exactK.
Proof. intros E m. unfold set_mode. seaks. Qed.
Lemma sx_pop_am : forall E m, tri exactK (pop_mode_after_movement E m) exactK.
Proof. intros E m. unfold pop_mode_after_movement. seaks. Qed.
Lemma sx_pop_mode : forall E, tri exactK (pop_mode E) exactK.
Proof.
  intros E. unfold pop_mode. seaks. intros [k s] Hs. unfold lift.
  pose proof (tri_display E s (proj1 Hs)) as H. destruct (display E s); [exact H|exact I|exact I|exact I].
Qed.
Lemma sx_abort : forall E, tri exactK (normal_mode_abort E) exactK.
Proof. intros E. unfold normal_mode_abort. seaks. Qed.
Lemma sx_vi_common : forall E k, tri exactK (vi_common E k) exactK.
Proof. intros E k. unfold vi_common. seaks. Qed.
Lemma sx_insert_reset : tri exactK insert_reset exactK.
Proof. unfold insert_reset. seaks. Qed.
Lemma sx_push_last : forall k, tri exactK (push_last k) exactK.
Proof. intro k. unfold push_last. seaks. Qed.
Lemma sx_push_cur : forall k, tri exactK (push_cur k) exactK.
Proof. intro k. unfold push_cur. seaks. Qed.
Lemma sx_mcr : tri exactK mcr exactK.
Proof. unfold mcr. seaks. Qed.
#[export] Hint Resolve sx_set_mode sx_pop_am sx_pop_mode sx_abort sx_vi_common
  sx_insert_reset sx_push_last sx_push_cur sx_mcr : sea.
Lemma sx_move_word : forall E a b n, tri exact_ (vi_move_word E a b n) exact_.
Proof. intros. unfold vi_move_word. sea_go. Qed.
Lemma sx_move_word_end : forall E a b n, tri exact_ (vi_move_word_end E a b n) exact_.
Proof. intros. unfold vi_move_word_end. sea_go. Qed.
#[export] Hint Resolve sx_move_word sx_move_word_end : sea.
Lemma sx_move_to_char : forall E k m, tri exactK (vi_move_to_char E k m) exactK.
Proof. intros. unfold vi_move_to_char. seaks. Qed.
Lemma sx_tilde : forall E, tri exactK (tilde_step E) exactK.
Proof. intros. unfold tilde_step. seaks. Qed.
#[export] Hint Resolve sx_move_to_char sx_tilde : sea.

Lemma sx_vi_repeat : forall rec, (forall k, tri exactK (rec k) exactK) -> tri exactK (vi_repeat rec) exactK.
Proof. intros rec H. unfold vi_repeat. seaks. Qed.
Lemma sx_vi_insert : forall rec E k, (forall k, tri exactK (rec k) exactK) -> tri exactK (vi_insert rec E k) exactK.
Proof. intros rec E k H. unfold vi_insert. seaks. Qed.
Lemma sx_vi_normal : forall rec E k, (forall k, tri exactK (rec k) exactK) -> tri exactK (vi_normal rec E k) exactK.
Proof.
  intros rec E k H. pose proof (sx_vi_repeat rec H) as Hr. unfold vi_normal. seaks.
Qed.
Lemma sx_vi_replace : forall E k, tri exactK (vi_replace E k) exactK.
Proof. intros. unfold vi_replace. seaks. Qed.
Lemma sx_vi_doc : forall rec E k, (forall k, tri exactK (rec k) exactK) -> tri exactK (vi_delete_or_change rec E k) exactK.
Proof.
  intros rec E k H. pose proof (sx_vi_normal rec E k H) as Hn. unfold vi_delete_or_change. seaks.
Qed.
Lemma sx_finally : forall m f, tri exactK m exactK -> tri exactK (finally m f) exactK.
Proof.
  intros m f H x Hx. unfold finally. specialize (H x Hx). destruct (m x) as [a [v s]|e [v s]| |]; exact H.
Qed.
#[export] Hint Resolve sx_finally : sea.
Lemma sx_vi_g : forall E k, tri exactK (vi_g E k) exactK.
Proof. intros. unfold vi_g. seaks. Qed.
#[export] Hint Resolve sx_vi_replace sx_vi_g : sea.

Lemma sx_vi_core_fuel : forall f E k, tri exactK (vi_core_fuel f E k) exactK.
Proof.
  induction f as [|f IH]; intros E k; [intros s _; exact I|]. cbn [vi_core_fuel].
  pose proof (sx_vi_normal _ E k (IH E)). pose proof (sx_vi_insert _ E k (IH E)).
  pose proof (sx_vi_doc _ E k (IH E)). seaks.
Qed.
Lemma sx_vi_core : forall E k, tri exactK (vi_core E k) exactK.
Proof. intros E k. unfold vi_core. pose proof sx_vi_core_fuel. seaks. Qed.

(** * Sessions *)
Lemma new_exact : forall E p f ib h w cb ttys s, editor_new E p f ib h w cb ttys = ORet tt s -> exact_ s.
Proof.
  intros E p f ib h w cb ttys s H. unfold editor_new in H. cbv zeta in H.
  destruct (negb (e_wok E)); [discriminate|].
  match type of H with ?m ?s0 = _ =>
    assert (T : tri pending m exact_);
    [|specialize (T s0 (nosearch_pending s0 eq_refl)); rewrite H in T; exact T] end.
  sea_go.
Qed.

Lemma session_exact : forall {K} (core : env -> key -> MK K unit) (pre : MK K unit),
  (forall E k, tri exactK (core E k) exactK) -> tri exactK pre exactK ->
  forall E p f ib h w cb ttys s l k d k' s', editor_new E p f ib h w cb ttys = ORet tt s ->
  (pre ;;; run_keys core l) (k, s) = ORet d (k', s') -> exact_ s'.
Proof.
  intros K core pre H1 H3 E p f ib h w cb ttys s l k d k' s' Hn Hr.
  pose proof (new_exact _ _ _ _ _ _ _ _ _ Hn) as C.
  assert (T : tri exactK (pre ;;; run_keys core l) exactK).
  { apply (tri_bind _ exactK); [exact H3|intro]. apply sx_run. exact H1. }
  specialize (T (k, s) C). rewrite Hr in T. exact T.
Qed.

Lemma emacs_exact : forall E p f ib h w cb ttys s l d k' s', editor_new E p f ib h w cb ttys = ORet tt s ->
  run_keys emacs_core l (emacs_new, s) = ORet d (k', s') -> exact_ s'.
Proof.
  intros E p f ib h w cb ttys s l d k' s' Hn Hr.
  apply (session_exact emacs_core (ret tt) sx_emacs_core (tri_ret _ _)
    E p f ib h w cb ttys s l emacs_new d k' s' Hn). exact Hr.
Qed.
Lemma vi_exact : forall E p f ib h w cb ttys s E0 l d k' s', editor_new E p f ib h w cb ttys = ORet tt s ->
  (vi_init E0 ;;; run_keys vi_core l) (vi_new, s) = ORet d (k', s') -> exact_ s'.
Proof.
  intros E p f ib h w cb ttys s E0 l d k' s' Hn Hr.
  refine (session_exact vi_core (vi_init E0) sx_vi_core _
    E p f ib h w cb ttys s l vi_new d k' s' Hn Hr).
  unfold vi_init. seaks.
Qed.

Lemma exact_selected : forall s, exact_ s -> is_search s = true -> selected s (search_history_loc s).
Proof. intros s [_ H] Q. destruct (H Q) as [L C]. apply listed_selected; assumption. Qed.
