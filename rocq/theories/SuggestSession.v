(** The suggestion is right after every key (C30): a Hoare logic with two assertions about the state,
    [dirty] (between a change and the redraw) and [clean]. *)
From Verif Require Import Base Utf8 BufferModel UtilModel HistoryModel BufferSpec HistorySpec EditorState EditorModel
  KeymapModel ViModel MonadLemmas EditorLemmas EditorSpec CursorProofs EditorProofs SuggestProofs.
Local Open Scope monad_scope.

Definition tri {S A} (P : S -> Prop) (m : M S A) (Q : S -> Prop) : Prop :=
  forall s, P s -> match m s with ORet _ s' => Q s' | _ => True end.

Lemma tri_bind : forall {S A B} (P R Q : S -> Prop) (m : M S A) (k : A -> M S B),
  tri P m R -> (forall a, tri R (k a) Q) -> tri P (bind m k) Q.
Proof.
  intros S A B P R Q m k H1 H2 s Hs. unfold bind. specialize (H1 s Hs). destruct (m s) as [a s'| | |]; auto.
  apply H2. exact H1.
Qed.
Lemma tri_pre : forall {S A} (P P' Q : S -> Prop) (m : M S A), (forall s, P s -> P' s) -> tri P' m Q -> tri P m Q.
Proof. intros S A P P' Q m H1 H2 s Hs. apply H2, H1, Hs. Qed.
Lemma tri_post : forall {S A} (P Q Q' : S -> Prop) (m : M S A), (forall s, Q' s -> Q s) -> tri P m Q' -> tri P m Q.
Proof. intros S A P Q Q' m H1 H2 s Hs. specialize (H2 s Hs). destruct (m s); auto. Qed.
Lemma tri_ret : forall {S A} (P : S -> Prop) (a : A), tri P (ret a) P. Proof. intros S A P a s H. exact H. Qed.
Lemma tri_fail : forall {S A} (P Q : S -> Prop) e, tri P (@fail S A e) Q. Proof. intros S A P Q e s H. exact I. Qed.
Lemma tri_pan : forall {S A} (P Q : S -> Prop) e, tri P (@pan S A e) Q. Proof. intros S A P Q e s H. exact I. Qed.
Lemma tri_get : forall {S} (P : S -> Prop), tri P get P. Proof. intros S P s H. exact H. Qed.
Lemma tri_gets : forall {S A} (P : S -> Prop) (f : S -> A), tri P (gets f) P. Proof. intros S A P f s H. exact H. Qed.
Lemma tri_liftr : forall {S A} (P : S -> Prop) (r : res A), tri P (liftr r) P.
Proof. intros S A P r s H. unfold liftr. destruct r; [exact H|exact I]. Qed.
Lemma tri_modify : forall {S} (P Q : S -> Prop) f, (forall s, P s -> Q (f s)) -> tri P (modify f) Q.
Proof. intros S P Q f H s Hs. apply H, Hs. Qed.
Lemma tri_when : forall {S} (P : S -> Prop) b (m : M S unit), tri P m P -> tri P (when b m) P.
Proof. intros S P b m H. destruct b; [exact H|apply tri_ret]. Qed.
Lemma tri_when' : forall {S} (P Q : S -> Prop) b (m : M S unit), (forall s, P s -> Q s) -> tri P m Q -> tri P (when b m) Q.
Proof. intros S P Q b m I H. destruct b; [exact H|intros s Hs; apply I, Hs]. Qed.
Lemma tri_mfor : forall {S B} (P : S -> Prop) (l : list B) (f : B -> M S unit),
  (forall b, tri P (f b) P) -> tri P (mfor l f) P.
Proof.
  intros S B P l f H. induction l as [|b l IH]; [apply tri_ret|]. cbn [mfor]. apply (tri_bind _ P); [apply H|intro; exact IH].
Qed.
Lemma tri_Nloop : forall {S} (P : S -> Prop) n (body : M S bool), tri P body P -> tri P (Nloop n body) P.
Proof.
  intros S P n body H. unfold Nloop. destruct n as [|p]; [apply tri_ret|].
  apply (tri_bind _ P); [|intros; apply tri_ret].
  induction p as [q IH|q IH|]; cbn [ploop].
  - apply (tri_bind _ P); [exact H|]. intros [|]; [|apply tri_ret].
    apply (tri_bind _ P); [exact IH|]. intros [|]; [exact IH|apply tri_ret].
  - apply (tri_bind _ P); [exact IH|]. intros [|]; [exact IH|apply tri_ret].
  - exact H.
Qed.

Definition sugg_right (s : ed) : Prop :=
  is_search s = false -> ed_loc s = None -> ed_showauto s = true ->
  suggests (texts (ed_history s)) (data (ed_new s)) (ed_sugg s).

Definition nohist (s : ed) : Prop := ed_hvalid s = false.
Definition dirty (s : ed) : Prop := ed_loc s = None -> ed_hvalid s = false.
Definition clean (s : ed) : Prop := dirty s /\ sugg_right s.
Lemma clean_dirty : forall s, clean s -> dirty s. Proof. intros s H. apply H. Qed.
Lemma nohist_dirty : forall s, nohist s -> dirty s. Proof. intros s H _. exact H. Qed.

Lemma refreshed_dirty : forall s, dirty s -> dirty (refreshed s).
Proof. intros s H. unfold refreshed. destruct (is_search s && ed_changed s); [intros _; reflexivity|exact H]. Qed.
Lemma refreshed_search : forall s, is_search (refreshed s) = is_search s.
Proof.
  intros s. unfold refreshed. destruct (is_search s && ed_changed s) eqn:Q; [|reflexivity].
  apply andb_prop in Q as [Q _]. rewrite Q. unfold is_search, refresh_search. edsimp. destruct (ed_fwd s); reflexivity.
Qed.
Lemma tri_display : forall E, tri dirty (display E) clean.
Proof.
  intros E s Hd. destruct (display E s) as [u s'|e s'|p|] eqn:Ed; auto.
  pose proof (display_out E s) as H. rewrite Ed in H. destruct H as [g [b [tcl [cb [tty [_ [_ Hs']]]]]]].
  assert (D : dirty s').
  { pose proof (refreshed_dirty s Hd) as D. rewrite Hs'. exact D. }
  split; [exact D|]. intros S L A.
  assert (Sf : is_search s = false).
  { rewrite <- refreshed_search. rewrite Hs' in S. exact S. }
  destruct (display_plain _ _ _ _ Sf Ed) as [g2 [b2 [tcl2 [cb2 [tty2 [_ [_ Hs2]]]]]]].
  assert (L2 : ed_loc s = None) by (rewrite Hs2 in L; exact L).
  assert (A2 : ed_showauto s = true) by (rewrite Hs2 in A; exact A).
  assert (H2 : ed_history s' = ed_history s) by (rewrite Hs2; reflexivity).
  assert (N2 : ed_new s' = ed_new s) by (rewrite Hs2; reflexivity).
  pose proof (suggestion_out E s u s' L2 (Hd L2) Sf A2 Ed) as X. rewrite H2, N2. exact X.
Qed.
Lemma tri_with : forall {A} (f : buffer -> res (A * buffer)), tri dirty (with_cur_mut f) dirty.
Proof.
  intros A f. apply (tri_bind _ dirty).
  - intros s H. unfold cur_prep. edsimp. destruct (ed_loc s) eqn:L.
    + destruct (ed_hvalid s); [intro Q; revert Q; edsimp; congruence|]. destruct (hist_get _ _); [|exact I].
      destruct (copy_buffer _ _); [|exact I]. intro Q. revert Q. edsimp. congruence.
    + intro Q. apply H. exact L.
  - intros _ s H. unfold cur_upd. destruct (ed_loc s) eqn:L.
    + destruct (f (ed_hist s)) as [[a b]|]; [|exact I]. exact H.
    + destruct (f (ed_new s)) as [[a b]|]; [|exact I]. exact H.
Qed.
Lemma tri_with_same : forall {A} (f : buffer -> res (A * buffer)),
  (forall b a b', f b = Val (a, b') -> data b' = data b) -> tri clean (with_cur_mut f) clean.
Proof.
  intros A f F. apply (tri_bind _ clean).
  - intros s [H G]. unfold cur_prep. edsimp. destruct (ed_loc s) eqn:L.
    + assert (Z : forall h, clean (set_hvalid true (set_hist h (set_changed true s)))).
      { intro h. split; [intro Q; revert Q; edsimp; congruence|]. intros _ Q. revert Q. edsimp. congruence. }
      destruct (ed_hvalid s).
      * split; [intro Q; revert Q; edsimp; congruence|]. intros _ Q. revert Q. edsimp. congruence.
      * destruct (hist_get _ _); [|exact I]. destruct (copy_buffer _ _); [apply Z|exact I].
    + split; [exact H|exact G].
  - intros _ s [H G]. unfold cur_upd. destruct (ed_loc s) eqn:L.
    + destruct (f (ed_hist s)) as [[a b]|]; [|exact I]. split; [exact H|]. intros _ Q. revert Q. edsimp. congruence.
    + destruct (f (ed_new s)) as [[a b]|] eqn:Ef; [|exact I]. split; [exact H|]. intros Q1 Q2 Q3.
      edsimp. rewrite (F _ _ _ Ef). apply G; assumption.
Qed.
Lemma tri_get_cur : forall P, tri P get_cur P.
Proof. intros P s H. unfold get_cur. destruct (cur_buf s); [exact H|exact I]. Qed.
Lemma tri_tty : forall E t, tri clean (tty_write E t) clean.
Proof. intros E t s H. unfold tty_write. destruct (e_wok E); [exact H|exact I]. Qed.
Lemma tri_tty' : forall E t, tri dirty (tty_write E t) dirty.
Proof. intros E t s H. unfold tty_write. destruct (e_wok E); [exact H|exact I]. Qed.
Lemma tri_display_impl : forall E b, tri clean (display_impl E b) clean.
Proof.
  intros E b s H. pose proof (display_impl_out E b s) as O. destruct (display_impl E b s) as [a s'|e s'|p|]; auto.
  destruct O as [? [tcl [cb [tty [_ ->]]]]]. exact H.
Qed.
Lemma freshen_dirty : forall s, dirty s -> dirty (freshen_history s).
Proof. intros s H. unfold freshen_history. destruct (_ && _); exact H. Qed.
Lemma freshen_nohist : forall s, nohist s -> nohist (freshen_history s).
Proof. intros s H. unfold freshen_history. destruct (_ && _); exact H. Qed.

Create HintDb tri.
#[export] Hint Resolve tri_display tri_with tri_get_cur tri_tty tri_tty' tri_display_impl clean_dirty nohist_dirty : tri.

Ltac tcl := (* a change of the state that concerns neither assertion *)
  let s := fresh "s" in let H := fresh "H" in
  intros s H; cbv beta;
  first [ exact H
        | (unfold nohist, set_noeol_by, skip_completions_hint, clear_search, set_vi_mode in *; edsimp; reflexivity)
        | (apply clean_dirty in H; exact H)
        | (apply nohist_dirty in H; exact H)
        | (apply nohist_dirty; exact H)
        | (intro; edsimp; unfold nohist in H; first [exact H | assumption | congruence | discriminate])
        | (apply freshen_dirty; exact H)
        | (apply freshen_nohist; first [exact H | reflexivity]) ].
Ltac tstep :=
  cbv beta zeta;
  match goal with
  | |- tri ?P (ret _) ?P => apply tri_ret
  | |- tri clean (ret _) dirty => intros ? H; apply H
  | |- tri _ (fail _) _ => apply tri_fail
  | |- tri _ (pan _) _ => apply tri_pan
  | |- tri ?P get ?P => apply tri_get
  | |- tri ?P (gets _) ?P => apply tri_gets
  | |- tri ?P (liftr _) ?P => apply tri_liftr
  | |- tri _ (modify _) _ => apply tri_modify; solve [tcl]
  | |- tri ?P (when _ _) ?P => apply tri_when
  | |- tri _ (when _ _) _ => apply tri_when'; [solve [tcl]|]
  | |- tri _ (match ?x with _ => _ end) _ => destruct x
  | |- tri _ (bind _ _) _ => idtac
  | |- tri ?P _ ?P => solve [auto with tri]
  | |- tri _ _ _ => solve [auto with tri | eapply tri_pre; [|solve [auto with tri]]; tcl
                           | eapply tri_post; [|solve [auto with tri]]; tcl
                           | apply (tri_pre _ dirty); [tcl|]; apply (tri_post _ _ clean); [tcl|]; auto with tri]
  end.
Ltac tri_go :=
  cbv beta zeta;
  lazymatch goal with
  | |- tri ?P (bind _ _) _ =>
      first [ apply (tri_bind _ nohist); [solve [tri_go]|intro]
            | apply (tri_bind _ clean); [solve [tri_go]|intro]
            | apply (tri_bind _ dirty); [solve [tri_go]|intro] ]; tri_go
  | |- tri _ _ _ => tstep; tri_go
  | |- _ => idtac
  end.

Lemma cl_move_end : forall E, tri dirty (move_cursor_to_end_of_line E) clean.
Proof. intro E. unfold move_cursor_to_end_of_line. tri_go. Qed.
Lemma cl_move_start : forall E, tri dirty (move_cursor_to_start_of_line E) clean.
Proof. intro E. unfold move_cursor_to_start_of_line. tri_go. Qed.
Lemma cl_move_to : forall E n, tri dirty (move_cursor_to E n) clean.
Proof. intros E n. unfold move_cursor_to. tri_go. Qed.
Lemma cl_move_left : forall E n, tri dirty (move_cursor_left E n) clean.
Proof. intros E n. unfold move_cursor_left. tri_go. Qed.
Lemma cl_move_right : forall E n, tri dirty (move_cursor_right E n) clean.
Proof. intros E n. unfold move_cursor_right. tri_go. Qed.
Lemma cl_insert : forall E t, tri dirty (insert_chars_after_cursor E t) clean.
Proof. intros E t. unfold insert_chars_after_cursor. tri_go. Qed.
Lemma cl_insert1 : forall E c, tri dirty (insert_after_cursor E c) clean.
Proof. intros E c. apply cl_insert. Qed.
Lemma cl_insert_str : forall E c, tri dirty (insert_str_after_cursor E c) clean.
Proof. intros E c. apply cl_insert. Qed.
Lemma cl_del_before : forall E, tri dirty (delete_before_cursor E) clean.
Proof. intros E. unfold delete_before_cursor. tri_go. Qed.
Lemma cl_del_after : forall E, tri dirty (delete_after_cursor E) clean.
Proof. intros E. unfold delete_after_cursor. tri_go. Qed.
Lemma cl_del_all_before : forall E, tri dirty (delete_all_before_cursor E) clean.
Proof. intros E. unfold delete_all_before_cursor. tri_go. Qed.
Lemma cl_del_all_after : forall E, tri dirty (delete_all_after_cursor E) clean.
Proof. intros E. unfold delete_all_after_cursor. tri_go. Qed.
Lemma cl_del_until : forall E n, tri dirty (delete_until E n) clean.
Proof. intros E n. unfold delete_until. tri_go. Qed.
Lemma cl_del_until_inc : forall E n, tri dirty (delete_until_inclusive E n) clean.
Proof. intros E n. unfold delete_until_inclusive. tri_go. Qed.
Lemma cl_del_word : forall E b, tri dirty (delete_word_before_cursor E b) clean.
Proof. intros E b. unfold delete_word_before_cursor. tri_go. Qed.
Lemma cl_clear : forall E, tri dirty (clear E) clean.
Proof. intros E. unfold clear. tri_go. Qed.
#[export] Hint Resolve cl_move_end cl_move_start cl_move_to cl_move_left cl_move_right
  cl_insert cl_insert1 cl_insert_str cl_del_before cl_del_after cl_del_all_before
  cl_del_all_after cl_del_until cl_del_until_inc cl_del_word cl_clear : tri.

Lemma cl_undo_like : forall E f, tri dirty (undo_like E f) clean.
Proof. intros E f. unfold undo_like. tri_go. Qed.
#[export] Hint Resolve cl_undo_like : tri.
Lemma cl_undo : forall E, tri dirty (ed_undo E) clean.
Proof. intro E. unfold ed_undo. tri_go. Qed.
Lemma cl_redo : forall E, tri dirty (ed_redo E) clean.
Proof. intro E. unfold ed_redo. tri_go. Qed.
Lemma cl_revert : forall E, tri dirty (ed_revert E) clean.
Proof. intro E. unfold ed_revert. tri_go. Qed.
Lemma cl_search : forall E b, tri dirty (search E b) clean.
Proof.
  intros E b. unfold search. apply (tri_bind _ dirty); [|intro; tri_go].
  apply tri_modify. intros s H. destruct (negb (is_search s)).
  - intro. unfold refresh_search. edsimp. reflexivity.
  - unfold search_step. destruct (ed_subset s); [exact H|]. destruct (ed_subloc s); exact H.
Qed.
#[export] Hint Resolve cl_undo cl_redo cl_revert cl_search : tri.
Lemma cl_move_up : forall E, tri dirty (move_up E) clean.
Proof. intros E. unfold move_up. tri_go. Qed.
Lemma cl_move_down : forall E, tri dirty (move_down E) clean.
Proof. intros E. unfold move_down. tri_go. Qed.
Lemma cl_hist_start : forall E, tri dirty (move_to_start_of_history E) clean.
Proof. intros E. unfold move_to_start_of_history. tri_go. Qed.
Lemma cl_hist_end : forall E, tri dirty (move_to_end_of_history E) clean.
Proof. intros E. unfold move_to_end_of_history. tri_go. Qed.
Lemma cl_accept : forall E, tri dirty (accept_autosuggestion E) clean.
Proof. intros E. unfold accept_autosuggestion. tri_go. Qed.
#[export] Hint Resolve cl_move_up cl_move_down cl_hist_start cl_hist_end cl_accept : tri.

Lemma cl_complete : forall E, tri clean (complete E) clean.
Proof.
  intros E. unfold complete. apply (tri_bind _ clean); [tri_go|intro s]. destruct (ed_hint s) as [[comps i]|]; [tri_go|].
  apply (tri_bind _ clean); [tri_go|intro wr]. apply (tri_bind _ clean); [|intro; tri_go].
  apply tri_with_same. intros b a b'. destruct wr as [[st en]|]; cbn [rbind].
  - destruct (buf_range b st en); cbn [rbind]; congruence.
  - congruence.
Qed.
Definition nosearch (s : ed) : Prop := is_search s = false.
Lemma tri_and : forall {S A} (P Q Q' : S -> Prop) (m : M S A), tri P m Q -> tri P m Q' -> tri P m (fun s => Q s /\ Q' s).
Proof. intros S A P Q Q' m H1 H2 s Hs. specialize (H1 s Hs). specialize (H2 s Hs). destruct (m s); auto. Qed.
Lemma nosearch_display : forall E, tri nosearch (display E) nosearch.
Proof.
  intros E s Hs. destruct (display E s) as [u s'|e s'|p|] eqn:Ed; auto.
  destruct (display_plain _ _ _ _ Hs Ed) as [g [b [tcl [cb [tty [_ [_ ->]]]]]]]. exact Hs.
Qed.
Lemma accept_nosearch : forall E, tri dirty (accept_autosuggestion E) nosearch.
Proof.
  intros E. unfold accept_autosuggestion, move_cursor_to_end_of_line. apply (tri_bind _ dirty); [tri_go|intro s].
  apply (tri_bind _ dirty); [tri_go|intro]. apply (tri_bind _ nosearch).
  { intros x _. reflexivity. }
  intro. apply (tri_bind _ nosearch); [apply tri_get_cur|intro]. apply (tri_bind _ nosearch); [|intro; apply nosearch_display].
  intros x Hx. exact Hx.
Qed.
Lemma tri_get_eq : forall {S B} (P Q : S -> Prop) (k : S -> M S B),
  (forall s0, P s0 -> tri (fun s => s = s0) (k s0) Q) -> tri P (bind get k) Q.
Proof. intros S B P Q k H s Hs. exact (H s Hs s eq_refl). Qed.
Lemma cl_newline : forall E, tri clean (handle_newline E) clean.
Proof.
  intros E. unfold handle_newline. apply (tri_bind _ clean); [tri_go|intro]. apply tri_get_eq. intros s Hs.
  apply (tri_bind _ (fun s => clean s /\ nosearch s)).
  { destruct (is_search s) eqn:Q; cbn [when].
    - apply (tri_pre _ dirty); [intros x ->; apply Hs|]. apply tri_and; [apply cl_accept|apply accept_nosearch].
    - intros x ->. split; [exact Hs|exact Q]. }
  intro. apply (tri_bind _ clean).
  { intros x [Hx Hn]. unfold modify. split; [exact (proj1 Hx)|]. intros _ L A. exact (proj2 Hx Hn L A). }
  intro. tri_go.
Qed.
#[export] Hint Resolve cl_complete cl_newline : tri.

(** * Key maps *)
Definition on {K} (P : ed -> Prop) (x : K * ed) : Prop := P (snd x).
Lemma tri_lift : forall {K A} (P Q : ed -> Prop) (m : ME A), tri P m Q -> tri (@on K P) (lift m) (on Q).
Proof. intros K A P Q m H [k s] Hs. unfold lift. specialize (H s Hs). destruct (m s); exact H. Qed.
Lemma tri_getk : forall {K} (P : ed -> Prop), tri (@on K P) getk (on P).
Proof. intros K P [k s] H. exact H. Qed.
Lemma tri_modk : forall {K} (P : ed -> Prop) (f : K -> K), tri (on P) (modk f) (on P).
Proof. intros K P f [k s] H. exact H. Qed.
Lemma tri_gete : forall {K} (P : ed -> Prop), tri (@on K P) gete (on P).
Proof. intros K P [k s] H. exact H. Qed.
Lemma tri_mod_ed : forall {K} (P Q : ed -> Prop) f, (forall s, P s -> Q (f s)) -> tri (@on K P) (mod_ed f) (on Q).
Proof. intros K P Q f H [k s] Hs. apply H, Hs. Qed.

Ltac trik :=
  cbv beta zeta;
  match goal with
  | |- tri _ (bind _ _) _ => apply (tri_bind _ (on clean)); [|intro]
  | |- tri _ (ret _) _ => apply tri_ret
  | |- tri _ (fail _) _ => apply tri_fail
  | |- tri _ (pan _) _ => apply tri_pan
  | |- tri _ (liftr _) _ => apply tri_liftr
  | |- tri _ (when _ _) _ => apply tri_when
  | |- tri _ (lift _) _ => apply tri_lift; tri_go
  | |- tri _ getk _ => apply tri_getk
  | |- tri _ gete _ => apply tri_gete
  | |- tri _ (modk _) _ => apply tri_modk
  | |- tri _ (mod_ed _) _ => apply tri_mod_ed; first [solve [tcl] | idtac]
  | |- tri _ (Nloop _ _) _ => apply tri_Nloop
  | |- tri _ (mfor _ _) _ => apply tri_mfor; intro
  | H : _ |- tri _ _ _ => solve [apply H]
  | |- tri _ (match ?x with _ => _ end) _ => destruct x
  | |- tri _ _ _ => solve [auto with tri]
  end.
Ltac triks := repeat trik.
Notation cleanK := (on clean) (only parsing).

Lemma cl_handle : forall {K} (core : env -> key -> MK K unit), (forall E k, tri cleanK (core E k) cleanK) ->
  forall E k, tri cleanK (handle_key core E k) cleanK.
Proof.
  intros K core H E k. unfold handle_key. apply (tri_bind _ cleanK); [triks|intro s].
  apply (tri_bind _ cleanK); [intros x Hx; destruct (cur_buf s); [exact Hx|exact I]|intro e]. cbv zeta.
  apply (tri_bind _ cleanK); [|intro; triks].
  destruct (match k with KCtrl c => if is_char c "h" then KBackspace else k | _ => k end); try solve [triks].
  destruct (showing_autosuggestion s); [|triks].
  apply (tri_bind _ cleanK); [intros x Hx; destruct (cursor_is_at_end_of_line s); [exact Hx|exact I]|intro; triks].
Qed.
Lemma cl_run : forall {K} (core : env -> key -> MK K unit), (forall E k, tri cleanK (core E k) cleanK) ->
  forall l, tri cleanK (run_keys core l) cleanK.
Proof.
  intros K core H l. induction l as [|[E k] l IH]; cbn [run_keys]; [apply tri_ret|].
  apply (tri_bind _ cleanK); [apply cl_handle; exact H|]. intros [|]; [apply tri_ret|exact IH].
Qed.

Lemma cl_emacs_word : forall E b, tri clean (emacs_move_word E b) clean.
Proof. intros E b. unfold emacs_move_word. tri_go. Qed.
#[export] Hint Resolve cl_emacs_word : tri.
Lemma cl_last_arg : forall E, tri cleanK (handle_last_arg_fetch E) cleanK.
Proof. intro E. unfold handle_last_arg_fetch. triks. Qed.
#[export] Hint Resolve cl_last_arg : tri.
Lemma cl_emacs_core : forall E k, tri cleanK (emacs_core E k) cleanK.
Proof. intros E k. unfold emacs_core, emacs_ctrl, emacs_alt. triks. Qed.

Lemma group_same : forall f, f = start_undo_group \/ f = end_undo_group -> tri cleanK (buf_mut f) cleanK.
Proof.
  intros f H. unfold buf_mut. apply tri_lift, tri_with_same. intros b a b'. unfold pure_op. intro Q. injection Q as _ <-.
  destruct H as [-> | ->]; [unfold start_undo_group|unfold end_undo_group]; reflexivity.
Qed.

Lemma set_vi_mode_clean : forall m s, clean s -> clean (set_vi_mode m s).
Proof. intros m s H. unfold set_vi_mode. destruct (pr_vi (ed_prompt s)); exact H. Qed.

Lemma cl_set_editor_mode : forall E, tri cleanK (set_editor_mode E) cleanK.
Proof. intro E. unfold set_editor_mode. triks; apply set_vi_mode_clean. Qed.
#[export] Hint Resolve cl_set_editor_mode : tri.
Lemma cl_buf_start : tri cleanK (buf_mut start_undo_group) cleanK.
Proof. apply group_same. left. reflexivity. Qed.
Lemma cl_buf_end : tri cleanK (buf_mut end_undo_group) cleanK.
Proof. apply group_same. right. reflexivity. Qed.
#[export] Hint Resolve cl_buf_start cl_buf_end : tri.
Lemma cl_smpl : forall E m, tri cleanK (set_mode_preserve_last E m) cleanK.
Proof. intros E m. unfold set_mode_preserve_last. triks. Qed.
#[export] Hint Resolve cl_smpl : tri.
Lemma cl_set_mode : forall E m, tri cleanK (set_mode E m) cleanK.
Proof. intros E m. unfold set_mode. triks. Qed.
Lemma cl_pop_am : forall E m, tri cleanK (pop_mode_after_movement E m) cleanK.
Proof. intros E m. unfold pop_mode_after_movement. triks. Qed.
Lemma cl_pop_mode : forall E, tri cleanK (pop_mode E) cleanK.
Proof.
  intros E. unfold pop_mode. triks. intros [k s] Hs. unfold lift.
  pose proof (tri_display E s (proj1 Hs)) as H. destruct (display E s); [exact H|exact I|exact I|exact I].
Qed.
Lemma cl_abort : forall E, tri cleanK (normal_mode_abort E) cleanK.
Proof. intros E. unfold normal_mode_abort. triks. Qed.
Lemma cl_vi_common : forall E k, tri cleanK (vi_common E k) cleanK.
Proof. intros E k. unfold vi_common. triks. Qed.
Lemma cl_insert_reset : tri cleanK insert_reset cleanK.
Proof. unfold insert_reset. triks. Qed.
Lemma cl_push_last : forall k, tri cleanK (push_last k) cleanK.
Proof. intro k. unfold push_last. triks. Qed.
Lemma cl_push_cur : forall k, tri cleanK (push_cur k) cleanK.
Proof. intro k. unfold push_cur. triks. Qed.
Lemma cl_mcr : tri cleanK mcr cleanK.
Proof. unfold mcr. triks. Qed.
#[export] Hint Resolve cl_set_mode cl_pop_am cl_pop_mode cl_abort cl_vi_common
  cl_insert_reset cl_push_last cl_push_cur cl_mcr : tri.
Lemma cl_move_word : forall E a b n, tri clean (vi_move_word E a b n) clean.
Proof. intros. unfold vi_move_word. tri_go. Qed.
Lemma cl_move_word_end : forall E a b n, tri clean (vi_move_word_end E a b n) clean.
Proof. intros. unfold vi_move_word_end. tri_go. Qed.
#[export] Hint Resolve cl_move_word cl_move_word_end : tri.
Lemma cl_move_to_char : forall E k m, tri cleanK (vi_move_to_char E k m) cleanK.
Proof. intros. unfold vi_move_to_char. triks. Qed.
Lemma cl_tilde : forall E, tri cleanK (tilde_step E) cleanK.
Proof. intros. unfold tilde_step. triks. Qed.
#[export] Hint Resolve cl_move_to_char cl_tilde : tri.

Lemma cl_vi_repeat : forall rec, (forall k, tri cleanK (rec k) cleanK) -> tri cleanK (vi_repeat rec) cleanK.
Proof. intros rec H. unfold vi_repeat. triks. Qed.
Lemma cl_vi_insert : forall rec E k, (forall k, tri cleanK (rec k) cleanK) -> tri cleanK (vi_insert rec E k) cleanK.
Proof. intros rec E k H. unfold vi_insert. triks. Qed.
Lemma cl_vi_normal : forall rec E k, (forall k, tri cleanK (rec k) cleanK) -> tri cleanK (vi_normal rec E k) cleanK.
Proof.
  intros rec E k H. pose proof (cl_vi_repeat rec H) as Hr. unfold vi_normal. triks.
Qed.
Lemma cl_vi_replace : forall E k, tri cleanK (vi_replace E k) cleanK.
Proof. intros. unfold vi_replace. triks. Qed.
Lemma cl_vi_doc : forall rec E k, (forall k, tri cleanK (rec k) cleanK) -> tri cleanK (vi_delete_or_change rec E k) cleanK.
Proof.
  intros rec E k H. pose proof (cl_vi_normal rec E k H) as Hn. unfold vi_delete_or_change. triks.
Qed.
Lemma cl_finally : forall m f, tri cleanK m cleanK -> tri cleanK (finally m f) cleanK.
Proof.
  intros m f H x Hx. unfold finally. specialize (H x Hx). destruct (m x) as [a [v s]|e [v s]| |]; exact H.
Qed.
#[export] Hint Resolve cl_finally : tri.
Lemma cl_vi_g : forall E k, tri cleanK (vi_g E k) cleanK.
Proof. intros. unfold vi_g. triks. Qed.
#[export] Hint Resolve cl_vi_replace cl_vi_g : tri.

Lemma cl_vi_core_fuel : forall f E k, tri cleanK (vi_core_fuel f E k) cleanK.
Proof.
  induction f as [|f IH]; intros E k; [intros s _; exact I|]. cbn [vi_core_fuel].
  pose proof (cl_vi_normal _ E k (IH E)). pose proof (cl_vi_insert _ E k (IH E)).
  pose proof (cl_vi_doc _ E k (IH E)). triks.
Qed.
Lemma cl_vi_core : forall E k, tri cleanK (vi_core E k) cleanK.
Proof. intros E k. unfold vi_core. pose proof cl_vi_core_fuel. triks. Qed.

(** * Sessions *)
Lemma new_clean : forall E p f ib h w cb ttys s, editor_new E p f ib h w cb ttys = ORet tt s ->
  clean s /\ ed_showauto s = true.
Proof.
  intros E p f ib h w cb ttys s H. unfold editor_new in H. cbv zeta in H.
  destruct (negb (e_wok E)); [discriminate|].
  match type of H with ?m ?s0 = _ =>
    assert (K : keeps frame m); [pose proof (keeps_move_end E); kp|];
    assert (T : tri dirty m clean);
    [|specialize (K s0); specialize (T s0 (fun _ => eq_refl)); rewrite H in K, T; split;
      [exact T|exact (fr_showauto _ _ K)]] end.
  tri_go.
Qed.

Lemma session_clean : forall {K} (core : env -> key -> MK K unit) (pre : MK K unit),
  (forall E k, tri cleanK (core E k) cleanK) -> (forall E k, keeps kframe (core E k)) ->
  tri cleanK pre cleanK -> keeps kframe pre ->
  forall E p f ib h w cb ttys s l k d k' s', editor_new E p f ib h w cb ttys = ORet tt s ->
  (pre ;;; run_keys core l) (k, s) = ORet d (k', s') -> clean s' /\ ed_showauto s' = true.
Proof.
  intros K core pre H1 H2 H3 H4 E p f ib h w cb ttys s l k d k' s' Hn Hr.
  destruct (new_clean _ _ _ _ _ _ _ _ _ Hn) as [C A].
  assert (T : tri cleanK (pre ;;; run_keys core l) cleanK).
  { apply (tri_bind _ cleanK); [exact H3|intro]. apply cl_run. exact H1. }
  assert (F : keeps kframe (pre ;;; run_keys core l)).
  { apply (keeps_bind _ kframe_trans); [exact H4|intro]. apply keeps_run_keys. exact H2. }
  specialize (T (k, s) C). specialize (F (k, s)). rewrite Hr in T, F. split; [exact T|].
  unfold kframe in F. cbn [snd] in F. rewrite (fr_showauto _ _ F). exact A.
Qed.

Lemma emacs_clean : forall E p f ib h w cb ttys s l d k' s', editor_new E p f ib h w cb ttys = ORet tt s ->
  run_keys emacs_core l (emacs_new, s) = ORet d (k', s') -> clean s' /\ ed_showauto s' = true.
Proof.
  intros E p f ib h w cb ttys s l d k' s' Hn Hr.
  apply (session_clean emacs_core (ret tt) cl_emacs_core keeps_emacs_core (tri_ret _ _) (keeps_ret _ kframe_refl _)
    E p f ib h w cb ttys s l emacs_new d k' s' Hn). exact Hr.
Qed.
Lemma vi_clean : forall E p f ib h w cb ttys s E0 l d k' s', editor_new E p f ib h w cb ttys = ORet tt s ->
  (vi_init E0 ;;; run_keys vi_core l) (vi_new, s) = ORet d (k', s') -> clean s' /\ ed_showauto s' = true.
Proof.
  intros E p f ib h w cb ttys s E0 l d k' s' Hn Hr.
  refine (session_clean vi_core (vi_init E0) cl_vi_core keeps_vi_core _ _
    E p f ib h w cb ttys s l vi_new d k' s' Hn Hr).
  - unfold vi_init. triks.
  - unfold vi_init. kpk.
Qed.

Lemma emacs_suggestion : forall E p f ib h w cb ttys s l d k' s', editor_new E p f ib h w cb ttys = ORet tt s ->
  run_keys emacs_core l (emacs_new, s) = ORet d (k', s') -> is_search s' = false -> ed_loc s' = None ->
  suggests (texts (ed_history s')) (data (ed_new s')) (ed_sugg s').
Proof.
  intros E p f ib h w cb ttys s l d k' s' Hn Hr S L.
  destruct (emacs_clean _ _ _ _ _ _ _ _ _ _ _ _ _ Hn Hr) as [[_ C] A]. exact (C S L A).
Qed.
Lemma vi_suggestion : forall E p f ib h w cb ttys s E0 l d k' s', editor_new E p f ib h w cb ttys = ORet tt s ->
  (vi_init E0 ;;; run_keys vi_core l) (vi_new, s) = ORet d (k', s') -> is_search s' = false -> ed_loc s' = None ->
  suggests (texts (ed_history s')) (data (ed_new s')) (ed_sugg s').
Proof.
  intros E p f ib h w cb ttys s E0 l d k' s' Hn Hr S L.
  destruct (vi_clean _ _ _ _ _ _ _ _ _ _ _ _ _ _ Hn Hr) as [[_ C] A]. exact (C S L A).
Qed.

(** Accepting what is suggested. *)
Lemma accept_clean : forall K (core : env -> key -> MK K unit) E x s g c k d x' s2,
  clean s -> ed_showauto s = true -> ed_loc s = None -> is_search s = false -> ed_sugg s = Some g ->
  line_is s (data (ed_new s)) c ->
  k = KCtrl (ch "f") \/ (k = KRight /\ (c = length (data (ed_new s)) - 1 /\ ed_noeol s = true \/
                                        c = length (data (ed_new s)) /\ ed_noeol s = false)) ->
  handle_key core E k (x, s) = ORet d (x', s2) ->
  d = false /\ x' = x /\ line_is s2 (data g) (clamp_cursor (ed_noeol s) (length (data g)) (length (data g))) /\
  ed_loc s2 = None /\ exists b, buf_undo (ed_new s2) = Val (true, b) /\ data b = data (ed_new s).
Proof.
  intros K core E x s g c k d x' s2 [_ C] A L S G Hl Hk H. specialize (C S L A). rewrite G in C.
  destruct C as [Ne [old [new [_ [[y [r Hx]] _]]]]].
  assert (Hb : cur_buf s = Val (ed_new s)) by (unfold cur_buf; rewrite L; reflexivity).
  assert (Hc : ed_cursor s = c) by (destruct Hl as [b [_ [_ Q]]]; exact Q).
  assert (Hsh : showing_autosuggestion s = true) by (unfold showing_autosuggestion; rewrite G; reflexivity).
  assert (Hk' : k = KCtrl (ch "f") \/ (k = KRight /\ cursor_is_at_end_of_line s = Val true)).
  { destruct Hk as [->|[-> Hk]]; [left; reflexivity|right]. split; [reflexivity|].
    unfold cursor_is_at_end_of_line. rewrite Hb, Hc. cbn [rbind]. unfold num_chars.
    destruct Hk as [[-> ->]|[-> ->]].
    - unfold sub_chk. destruct (data (ed_new s)) as [|z t]; [congruence|]. 
      change (1 <=? length (z :: t)) with true. cbv iota. cbn [rbind]. rewrite Nat.eqb_refl. reflexivity.
    - rewrite Nat.eqb_refl. reflexivity. }
  destruct (accept_key core E x s _ d x' s2 k Hb Hsh Hk' H) as [-> [-> Hacc]].
  destruct (accept_out E s tt s2 (ed_new s) g y r S A Hb G Hx Hacc) as [b' [B1 [B2 [B3 [B4 B5]]]]].
  assert (Hl2 : ed_loc s2 = None) by (rewrite B4; exact L).
  assert (Hb' : b' = ed_new s2) by (unfold cur_buf in B1; rewrite Hl2 in B1; congruence). subst b'.
  split; [reflexivity|]. split; [reflexivity|]. split.
  - exists (ed_new s2). split; [exact B1|]. split; [exact B2|exact B3].
  - split; [exact Hl2|exact B5].
Qed.

Lemma clamp_true : forall n, clamp_cursor true n n = n - 1.
Proof.
  intro n. unfold clamp_cursor. rewrite Nat.ltb_irrefl, Nat.eqb_refl. destruct n; [reflexivity|]. reflexivity.
Qed.
Lemma emacs_accept : forall E p f ib h w cb ttys s l d k' s' E' g c k d' k2 s2,
  editor_new E p f ib h w cb ttys = ORet tt s -> run_keys emacs_core l (emacs_new, s) = ORet d (k', s') ->
  is_search s' = false -> ed_loc s' = None -> ed_sugg s' = Some g -> line_is s' (data (ed_new s')) c ->
  k = KCtrl (ch "f") \/ (k = KRight /\ c = length (data (ed_new s'))) ->
  handle_key emacs_core E' k (k', s') = ORet d' (k2, s2) ->
  d' = false /\ line_is s2 (data g) (length (data g)) /\ ed_loc s2 = None /\
  exists b, buf_undo (ed_new s2) = Val (true, b) /\ data b = data (ed_new s').
Proof.
  intros E p f ib h w cb ttys s l d k' s' E' g c k d' k2 s2 Hn Hr S L G Hl Hk H.
  destruct (emacs_clean _ _ _ _ _ _ _ _ _ _ _ _ _ Hn Hr) as [C A].
  assert (Ne : ed_noeol s' = false).
  { apply editor_new_curok in Hn.
    assert (K : kpres (run_keys emacs_core l) eolI) by (apply kpres_run_keys; [exact eolI_local|exact kpres_emacs_core]).
    specialize (K (emacs_new, s) Hn). pose proof (wp_ret_of _ _ _ _ _ _ _ K Hr) as [_ Q]. exact Q. }
  destruct (accept_clean emacs emacs_core E' k' s' g c k d' k2 s2 C A L S G Hl) as [Q1 [Q2 [Q3 Q4]]].
  - destruct Hk as [->|[-> ->]]; [left; reflexivity|right]. split; [reflexivity|]. right. split; [reflexivity|exact Ne].
  - exact H.
  - split; [exact Q1|]. split; [|exact Q4]. rewrite Ne in Q3. rewrite (clamp_false (length (data g)) (length (data g))) in Q3; [exact Q3|lia].
Qed.
Lemma vi_accept : forall E p f ib h w cb ttys s l d v s' E' g c k d' v2 s2,
  editor_new E p f ib h w cb ttys = ORet tt s -> (vi_init E ;;; run_keys vi_core l) (vi_new, s) = ORet d (v, s') ->
  is_search s' = false -> ed_loc s' = None -> ed_sugg s' = Some g -> line_is s' (data (ed_new s')) c ->
  k = KCtrl (ch "f") \/
  (k = KRight /\ (vmode_of v = MNormal -> c = length (data (ed_new s')) - 1) /\
                 (vmode_of v <> MNormal -> c = length (data (ed_new s')))) ->
  handle_key vi_core E' k (v, s') = ORet d' (v2, s2) ->
  d' = false /\ v2 = v /\ (vmode_of v = MNormal -> line_is s2 (data g) (length (data g) - 1)) /\
  (vmode_of v <> MNormal -> line_is s2 (data g) (length (data g))) /\ ed_loc s2 = None /\
  exists b, buf_undo (ed_new s2) = Val (true, b) /\ data b = data (ed_new s').
Proof.
  intros E p f ib h w cb ttys s l d v s' E' g c k d' v2 s2 Hn Hr S L G Hl Hk H.
  destruct (vi_clean _ _ _ _ _ _ _ _ _ _ _ _ _ _ Hn Hr) as [C A].
  assert (Ne : ed_noeol s' = is_normal (vmode_of v)).
  { apply editor_new_curok in Hn.
    assert (K : kpres (vi_init E ;;; run_keys vi_core l) viI).
    { apply kpres_bind; [apply kp_vi_init|]. intro. apply kpres_run_keys; [exact viI_local|exact kp_vi_core]. }
    specialize (K (vi_new, s)). assert (HI : viI (vi_new, s)) by (destruct Hn; split; assumption).
    pose proof (wp_ret_of _ _ _ _ _ _ _ (K HI) Hr) as [_ Q]. exact Q. }
  destruct (accept_clean vi vi_core E' v s' g c k d' v2 s2 C A L S G Hl) as [Q1 [Q2 [Q3 Q4]]].
  - destruct Hk as [->|[-> [K1 K2]]]; [left; reflexivity|right]. split; [reflexivity|]. rewrite Ne.
    destruct (vmode_of v); cbn [is_normal]; try (right; split; [apply K2; discriminate|reflexivity]).
    left. split; [apply K1|]; reflexivity.
  - exact H.
  - split; [exact Q1|]. split; [exact Q2|]. rewrite Ne in Q3. split; [|split; [|exact Q4]].
    + intro M. rewrite M in Q3. cbn [is_normal] in Q3. rewrite clamp_true in Q3. exact Q3.
    + intro M. destruct (vmode_of v); cbn [is_normal] in Q3; try congruence;
        (rewrite (clamp_false (length (data g)) (length (data g))) in Q3; [exact Q3|lia]).
Qed.
