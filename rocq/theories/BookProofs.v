(** Emacs sessions that walk through the history agree with the pure editor of
    BookSpec.v (C85). *)
From Verif Require Import Base Utf8 BufferModel UtilModel HistoryModel EditorState EditorModel
  KeymapModel ViModel MonadLemmas EditorLemmas CursorProofs Lemmas BufferSpec BufferProofs HistorySpec HistoryProofs
  UtilSpec UtilProofs EditorSpec EditorProofs SuggestProofs EditorOps EmacsSpec EmacsProofs
  BrowseSpec WalkSpec BrowseProofs PinProofs WalkProofs EmacsSpec BookSpec.
Local Open Scope monad_scope.

(** * What is offered *)
Lemma same_iff : forall t x, same t x = true <-> t = x.
Proof. intros t x. unfold same. destruct (list_eq_dec N.eq_dec t x); split; congruence. Qed.
Lemma inside_iff : forall t x, inside t x = true <-> occurs t x.
Proof.
  intros t x. unfold inside. rewrite existsb_exists. split.
  - intros [n [_ H]]. apply same_iff in H. exists (firstn n x), (skipn (length t) (skipn n x)).
    rewrite H at 1. rewrite (firstn_skipn (length t)), firstn_skipn. reflexivity.
  - intros [a [b ->]]. exists (length a). split; [apply in_seq; rewrite !app_length; lia|].
    apply same_iff. rewrite skipn_app_len, firstn_app_eq by reflexivity. reflexivity.
Qed.
Lemma filter_rev : forall {A} (f : A -> bool) l, filter f (rev l) = rev (filter f l).
Proof.
  intros A f l. induction l as [|x l IH]; [reflexivity|]. cbn [rev filter]. rewrite filter_app, IH. cbn [filter].
  destruct (f x); [reflexivity|]. cbn [rev]. apply app_nil_r.
Qed.
Lemma offers_offered : forall hs t, offered hs t (offers hs t).
Proof.
  intros hs [|c t]; [reflexivity|]. unfold offered, offers. rewrite !filter_rev.
  eexists _, _. split; [apply (selects_filter _ (longer (c :: t))); apply (longer_iff _ default_increasing)|]. split; [|reflexivity].
  apply selects_filter. intro x. rewrite !andb_true_iff, !negb_true_iff, inside_iff.
  rewrite <- !not_true_iff_false, (longer_iff _ default_increasing), same_iff. intuition congruence.
Qed.

(** * What editing leaves alone *)
Definition rk (s s' : ed) : Prop :=
  is_search s = false ->
  ed_history s' = ed_history s /\ pos s' = pos s /\ ed_showauto s' = ed_showauto s /\
  (ed_loc s <> None -> ed_new s' = ed_new s) /\ (ed_loc s = None -> ed_hist s' = ed_hist s).
Lemma rk_refl : refl rk.
Proof. intros s _. repeat split; auto. Qed.
Lemma rk_trans : trans rk.
Proof.
  intros a b c H1 H2 Hs. destruct (H1 Hs) as [A1 [A2 [A3 [A4 A5]]]].
  destruct H2 as [B1 [B2 [B3 [B4 B5]]]]; [rewrite (pos_search _ _ A2); exact Hs|]. pose proof (pos_loc _ _ A2) as L.
  rewrite L in *. repeat split; try congruence; intro Hl.
  - rewrite (B4 Hl). auto.
  - rewrite (B5 Hl). auto.
Qed.
Lemma rk_other : forall s s', ed_history s' = ed_history s -> pos s' = pos s -> ed_showauto s' = ed_showauto s ->
  ed_new s' = ed_new s -> ed_hist s' = ed_hist s -> rk s s'.
Proof. intros s s' H1 H2 H3 H4 H5 _. auto. Qed.
Ltac rkd := apply rk_other; reflexivity.
Lemma refreshed_plain : forall s, is_search s = false -> refreshed s = s.
Proof. intros s H. unfold refreshed. rewrite H. reflexivity. Qed.
Lemma rk_display : forall E, keeps rk (display E).
Proof.
  intros E s. pose proof (display_out E s) as H. destruct (display E s) as [a s'|e s'|p|]; auto.
  - intros Hs. destruct H as [g [b [tcl [cb [tty [_ [_ ->]]]]]]]. rewrite (refreshed_plain _ Hs). unfold shown. repeat split.
  - intros Hs. destruct H as [_ [g [c [tcl [cb [_ [-> _]]]]]]]. rewrite (refreshed_plain _ Hs). unfold shown. repeat split.
Qed.
Lemma rk_get_cur : keeps rk get_cur.
Proof. intro s. unfold get_cur. destruct (cur_buf s); [apply rk_refl|exact I]. Qed.
Lemma rk_with_cur_mut : forall {A} (f : buffer -> res (A * buffer)), keeps rk (with_cur_mut f).
Proof.
  intros A f. apply (keeps_bind _ rk_trans).
  - intro s. unfold cur_prep. edsimp. destruct (ed_loc s) eqn:L; [|rkd].
    destruct (ed_hvalid s) eqn:V; [rkd|].
    destruct (hist_get _ _); [|exact I]. destruct (copy_buffer _ _); [|exact I].
    intros _. repeat split; auto. congruence.
  - intros _ s. unfold cur_upd. destruct (ed_loc s) eqn:L.
    + destruct (f (ed_hist s)) as [[a b]|]; [|exact I]. intros _. repeat split; auto. congruence.
    + destruct (f (ed_new s)) as [[a b]|]; [|exact I]. intros _. repeat split; auto. congruence.
Qed.
#[export] Hint Resolve rk_display rk_get_cur rk_with_cur_mut : brw.
Ltac kr1 :=
  match goal with
  | |- keeps _ (modify _) => let s := fresh "s" in apply keeps_modify; intro s; cbv beta; first [reflexivity | solve [rkd] | idtac]
  | |- _ => kb1 rk_trans rk_refl
  end.
Ltac kbr := repeat kr1.
Lemma r_move_end : forall E, keeps rk (move_cursor_to_end_of_line E).
Proof. intro E. unfold move_cursor_to_end_of_line. kbr. Qed.
Lemma r_move_start : forall E, keeps rk (move_cursor_to_start_of_line E).
Proof. intro E. unfold move_cursor_to_start_of_line. kbr. Qed.
Lemma r_move_to : forall E n, keeps rk (move_cursor_to E n).
Proof. intros E n. unfold move_cursor_to. kbr. Qed.
Lemma r_move_left : forall E n, keeps rk (move_cursor_left E n).
Proof. intros E n. unfold move_cursor_left. kbr. Qed.
Lemma r_move_right : forall E n, keeps rk (move_cursor_right E n).
Proof. intros E n. unfold move_cursor_right. kbr. Qed.
#[export] Hint Resolve r_move_end r_move_start r_move_to r_move_left r_move_right : brw.
Lemma r_move_word : forall E b, keeps rk (emacs_move_word E b).
Proof. intros E b. unfold emacs_move_word. kbr. Qed.
Lemma r_insert : forall E t, keeps rk (insert_chars_after_cursor E t).
Proof. intros E t. unfold insert_chars_after_cursor. kbr. Qed.
Lemma r_insert1 : forall E c, keeps rk (insert_after_cursor E c).
Proof. intros E c. apply r_insert. Qed.
Lemma r_del_before : forall E, keeps rk (delete_before_cursor E).
Proof. intros E. unfold delete_before_cursor. kbr. Qed.
Lemma r_del_after : forall E, keeps rk (delete_after_cursor E).
Proof. intros E. unfold delete_after_cursor. kbr. Qed.
Lemma r_del_all_before : forall E, keeps rk (delete_all_before_cursor E).
Proof. intros E. unfold delete_all_before_cursor. kbr. Qed.
Lemma r_del_all_after : forall E, keeps rk (delete_all_after_cursor E).
Proof. intros E. unfold delete_all_after_cursor. kbr. Qed.
Lemma r_del_word : forall E b, keeps rk (delete_word_before_cursor E b).
Proof. intros E b. unfold delete_word_before_cursor. kbr. Qed.
Lemma r_undo_like : forall E f, keeps rk (undo_like E f).
Proof. intros E f. unfold undo_like. kbr. Qed.
#[export] Hint Resolve r_move_word r_insert r_insert1 r_del_before r_del_after r_del_all_before r_del_all_after
  r_del_word r_undo_like : brw.
Lemma r_undo : forall E, keeps rk (ed_undo E).
Proof. intro E. unfold ed_undo. kbr. Qed.
Lemma r_revert : forall E, keeps rk (ed_revert E).
Proof. intro E. unfold ed_revert. kbr. Qed.
#[export] Hint Resolve r_undo r_revert : brw.
Ltac kkr1 :=
  cbv beta zeta;
  match goal with
  | |- keeps _ (lift _) => apply on_lift; kbr
  | |- keeps _ (mod_ed _) => let s := fresh "s" in apply on_mod_ed; intro s; cbv beta; first [reflexivity | solve [rkd] | idtac]
  | |- _ => kk1 rk_trans rk_refl
  end.
Ltac kkr := repeat kkr1.
Lemma r_core : forall E k, edits k -> k <> KCtrl (ch "l") -> keeps (on_ed rk) (emacs_core E k).
Proof.
  intros E k He Hl. unfold emacs_core. destruct k; cbn [edits] in He; try contradiction; kkr.
  - unfold emacs_alt.
    destruct (is_char c "<") eqn:C1; [exfalso; apply He; apply N.eqb_eq in C1; subst; cbn; tauto|].
    destruct (is_char c ">") eqn:C2; [exfalso; apply He; apply N.eqb_eq in C2; subst; cbn; tauto|].
    destruct (is_char c ".") eqn:C3; [exfalso; apply He; apply N.eqb_eq in C3; subst; cbn; tauto|]. kkr.
  - unfold emacs_ctrl.
    destruct (is_char c "l") eqn:C1; [exfalso; apply Hl; apply N.eqb_eq in C1; rewrite C1; reflexivity|].
    destruct (is_char c "p") eqn:C2; [exfalso; apply He; apply N.eqb_eq in C2; subst; cbn; tauto|].
    destruct (is_char c "n") eqn:C3; [exfalso; apply He; apply N.eqb_eq in C3; subst; cbn; tauto|]. kbr.
Qed.

(** * Which keys copy the recalled line *)
Definition hk (s s' : ed) : Prop :=
  is_search s = false -> is_search s' = false /\ ed_hvalid s' = ed_hvalid s /\ ed_hist s' = ed_hist s.
Lemma hk_refl : refl hk.
Proof. intros s Hs. auto. Qed.
Lemma hk_trans : trans hk.
Proof. intros a b c H1 H2 Hs. destruct (H1 Hs) as [A1 [A2 A3]]. destruct (H2 A1) as [B1 [B2 B3]]. repeat split; congruence. Qed.
Ltac hkd := intro; split; [first [assumption|reflexivity]|split; reflexivity].
Lemma hk_display : forall E, keeps hk (display E).
Proof.
  intros E s. pose proof (display_out E s) as H. destruct (display E s) as [a s'|e s'|p|]; auto.
  - intro Hs. destruct H as [g [b [tcl [cb [tty [_ [_ ->]]]]]]]. rewrite (refreshed_plain _ Hs). unfold shown. revert Hs. hkd.
  - intro Hs. destruct H as [_ [g [c [tcl [cb [_ [-> _]]]]]]]. rewrite (refreshed_plain _ Hs). unfold shown. revert Hs. hkd.
Qed.
Lemma hk_get_cur : keeps hk get_cur.
Proof. intro s. unfold get_cur. destruct (cur_buf s); [apply hk_refl|exact I]. Qed.
#[export] Hint Resolve hk_display hk_get_cur : brw.
Ltac kh1 :=
  match goal with
  | |- keeps _ (modify _) => let s := fresh "s" in apply keeps_modify; intro s; cbv beta; first [reflexivity | solve [hkd] | idtac]
  | |- _ => kb1 hk_trans hk_refl
  end.
Ltac kbh' := repeat kh1.
Lemma h_move_end : forall E, keeps hk (move_cursor_to_end_of_line E).
Proof. intro E. unfold move_cursor_to_end_of_line. kbh'. Qed.
Lemma h_move_start : forall E, keeps hk (move_cursor_to_start_of_line E).
Proof. intro E. unfold move_cursor_to_start_of_line. kbh'. Qed.
Lemma h_move_to : forall E n, keeps hk (move_cursor_to E n).
Proof. intros E n. unfold move_cursor_to. kbh'. Qed.
Lemma h_move_left : forall E n, keeps hk (move_cursor_left E n).
Proof. intros E n. unfold move_cursor_left. kbh'. Qed.
Lemma h_move_right : forall E n, keeps hk (move_cursor_right E n).
Proof. intros E n. unfold move_cursor_right. kbh'. Qed.
#[export] Hint Resolve h_move_end h_move_start h_move_to h_move_left h_move_right : brw.
Lemma h_move_word : forall E b, keeps hk (emacs_move_word E b).
Proof. intros E b. unfold emacs_move_word. kbh'. Qed.
Lemma h_clear : forall E, keeps hk (clear E).
Proof. intro E. unfold clear. kbh'. Qed.
#[export] Hint Resolve h_move_word h_clear : brw.

Lemma ok_keeps : forall {S A} (R : S -> S -> Prop) (m : M S A) s, keeps R m -> ok m s (fun _ s' => R s s').
Proof. intros S A R m s H. specialize (H s). unfold ok. destruct (m s); auto. Qed.
Definition wr (w : bool) (s s' : ed) : Prop :=
  is_search s' = false /\ ed_hvalid s' = ed_hvalid s || w /\ (w = false -> ed_hist s' = ed_hist s).
Lemma wr_hk : forall {A} (m : ME A) s, is_search s = false -> keeps hk m -> ok m s (fun _ s' => wr false s s').
Proof.
  intros A m s Hs H. eapply ok_mono; [apply (ok_keeps hk _ s H)|]. cbv beta. intros _ s' K. destruct (K Hs) as [H0 [H1 H2]].
  split; [exact H0|]. split; [rewrite orb_false_r; exact H1|auto].
Qed.
(** A change and then no other. *)
Lemma wr_mut : forall {A B} (f : buffer -> res (A * buffer)) (m : A -> ME B) s i, is_search s = false -> ed_loc s = Some i -> (forall a, keeps hk (m a)) ->
  ok (bind (with_cur_mut f) m) s (fun _ s' => wr true s s').
Proof.
  intros A B f m s i Hs Hl Hm.
  assert (G : forall a s1, is_search s1 = false -> ed_hvalid s1 = true -> ok (m a) s1 (fun _ s' => wr true s s')).
  { intros a s1 H0 H1. eapply ok_mono; [apply (ok_keeps hk _ s1 (Hm a))|]. cbv beta. intros _ s' K. destruct (K H0) as [K0 [K1 K2]].
    split; [exact K0|]. split; [rewrite orb_true_r; congruence|discriminate]. }
  apply ok_bind. unfold ok, with_cur_mut, bind, cur_prep, cur_upd. edsimp. rewrite Hl.
  destruct (ed_hvalid s) eqn:Hv.
  - edsimp. rewrite Hl. destruct (f (ed_hist s)) as [[a b]|]; [|exact I]. apply G; [exact Hs|exact Hv].
  - destruct (hist_get _ _) as [hb|]; [|exact I]. destruct (copy_buffer _ _) as [cb|]; [|exact I]. edsimp. rewrite Hl.
    destruct (f cb) as [[y b']|]; [|exact I]. apply G; [exact Hs|reflexivity].
Qed.

Section Core.
  Context (words : text -> list (nat * nat)) (Hinc : forall t, increasing (words t)) (hs : list text).
  Context (i : nat).

  Lemma wr_same : forall s, is_search s = false -> wr false s s.
  Proof. intros s Hs. split; [exact Hs|]. split; [rewrite orb_false_r; reflexivity|auto]. Qed.
  Lemma wr_ret : forall {A} (a : A) s, is_search s = false -> ok (ret a : ME A) s (fun _ s' => wr false s s').
  Proof. intros A a s Hs. apply ok_ret. apply wr_same. exact Hs. Qed.
  Lemma wr_seq : forall {A B} (m : ME A) (n : ME B) w s, ok m s (fun _ s' => wr w s s') -> keeps hk n ->
    ok (m ;;; n) s (fun _ s' => wr w s s').
  Proof.
    intros A B m n w s H Hn. apply ok_bind. eapply ok_mono; [exact H|]. cbv beta. intros _ s1 [W0 [W1 W2]].
    eapply ok_mono; [apply (ok_keeps hk _ s1 Hn)|]. cbv beta. intros _ s' K. destruct (K W0) as [K0 [K1 K2]].
    split; [exact K0|]. split; [congruence|].
    intro Hw. rewrite K2. auto.
  Qed.
  Lemma w_back : forall E z s, zstate hs (Some i) z s ->
    ok (delete_before_cursor E) s (fun _ s' => wr (match before z with [] => false | _ => true end) s s').
  Proof.
    intros E z s [[[b [[Hs [_ [Hc _]]] _]] [Hl _]] _]. unfold delete_before_cursor. apply ok_bind. apply ok_in. intros c s1 H.
    injection H as <- <-. rewrite Hc. destruct (before z) as [|x r]; cbn [length Nat.ltb Nat.leb when].
    - apply wr_seq; [apply wr_ret; exact Hs|auto with brw].
    - apply wr_seq; [|auto with brw]. eapply wr_mut; [exact Hs|exact Hl|]. intro a. kbh'.
  Qed.
  Lemma w_word : forall E z s, e_words E = words -> zstate hs (Some i) z s ->
    ok (delete_word_before_cursor E true) s (fun _ s' => wr (match word_left words z with Some _ => true | None => false end) s s').
  Proof.
    intros E z s HE [Z R]. pose proof Z as [[b [[Hs _] _]] [Hl _]]. unfold delete_word_before_cursor.
    apply ok_bind, ok_get, ok_bind, ok_liftr. intros w Hw.
    rewrite (left_is_word _ _ _ (word_before_left hs (Some i) words Hinc E z s w HE Z Hw)).
    destruct w as [[st en]|].
    - apply wr_seq; [|auto with brw]. eapply wr_mut; [exact Hs|exact Hl|]. intro a. kbh'.
    - apply wr_seq; [apply wr_ret; exact Hs|auto with brw].
  Qed.
  Lemma w_gets : forall {B} (m : nat -> ME B) s w, ok (m (ed_cursor s)) s (fun _ s' => wr w s s') ->
    ok (bind (gets ed_cursor) m) s (fun _ s' => wr w s s').
  Proof. intros B m s w H. exact H. Qed.
  Lemma w_undo_like : forall E f s, is_search s = false -> ed_loc s = Some i -> ok (undo_like E f) s (fun _ s' => wr true s s').
  Proof. intros E f s Hs Hl. unfold undo_like. eapply wr_mut; [exact Hs|exact Hl|]. intro a. kbh'. Qed.
  Lemma w_delete : forall E s, is_search s = false -> ed_loc s = Some i -> ok (delete_after_cursor E) s (fun _ s' => wr true s s').
  Proof. intros E s Hs Hl. unfold delete_after_cursor. apply w_gets. eapply wr_mut; [exact Hs|exact Hl|]. intro. kbh'. Qed.
  Lemma w_ctrl : forall E c z s, edits (KCtrl c) -> is_char c "h" = false -> e_words E = words -> zstate hs (Some i) z s ->
    ok (emacs_ctrl E c) s (fun _ s' => wr (writes words (KCtrl c) z) s s').
  Proof.
    intros E c z s He Hh HE Z. pose proof Z as [[[b [[Hs _] _]] [Hl _]] _]. unfold emacs_ctrl.
    Local Ltac kw c x := destruct (is_char c x) eqn:?H;
      [match goal with H : is_char c x = true |- _ => apply N.eqb_eq in H; subst c end; cbn [writes]|].
    kw c "l"%string; [apply wr_hk; [exact Hs|auto with brw]|].
    kw c "a"%string; [apply wr_hk; [exact Hs|auto with brw]|].
    kw c "e"%string; [apply wr_hk; [exact Hs|auto with brw]|].
    kw c "b"%string; [apply wr_hk; [exact Hs|auto with brw]|].
    kw c "f"%string; [apply wr_hk; [exact Hs|auto with brw]|].
    kw c "d"%string; [apply w_delete; assumption|].
    kw c "p"%string; [exfalso; apply He; cbn; tauto|].
    kw c "n"%string; [exfalso; apply He; cbn; tauto|].
    kw c "u"%string.
    { unfold delete_all_before_cursor. apply w_gets. eapply wr_mut; [exact Hs|exact Hl|]. intro. kbh'. }
    kw c "k"%string.
    { unfold delete_all_after_cursor. apply w_gets. eapply wr_mut; [exact Hs|exact Hl|]. intro. kbh'. }
    kw c "w"%string; [apply w_word; assumption|].
    kw c "x"%string; [apply wr_seq; [apply w_undo_like; assumption|kbh']|].
    unfold writes. repeat match goal with H : is_char c _ = false |- _ => rewrite H; clear H end. apply wr_ret. exact Hs.
  Qed.
  Lemma w_core : forall E k z x s, edits k -> k <> KCtrl (ch "h") -> e_words E = words -> zstate hs (Some i) z s ->
    ok (emacs_core E k) (x, s) (fun _ y => wr (writes words k z) s (snd y)).
  Proof.
    intros E k z x s He Hk HE Z. pose proof Z as [[[b [[Hs _] _]] [Hl _]] _]. unfold emacs_core.
    assert (G : forall x', ok (match k with
      | KChar c => lift (insert_after_cursor E c)
      | KAlt c => emacs_alt E c
      | KCtrl c => lift (emacs_ctrl E c)
      | KLeft => lift (move_cursor_left E 1)
      | KRight => lift (move_cursor_right E 1)
      | KUp => lift (move_up E)
      | KDown => lift (move_down E)
      | KHome => lift (move_cursor_to_start_of_line E)
      | KEnd => lift (move_cursor_to_end_of_line E)
      | KBackspace => lift (delete_before_cursor E)
      | KDelete => lift (delete_after_cursor E)
      | KNull | KEsc | KOther _ => ret tt
      end) (x', s) (fun _ y => wr (writes words k z) s (snd y))).
    { intro x'. destruct k; try contradiction; cbn [writes];
        try (apply ok_ret; apply wr_same; exact Hs); try (apply ok_lift; cbn [snd]);
        try (apply wr_hk; [exact Hs|auto with brw]; fail).
      - unfold insert_after_cursor, insert_chars_after_cursor. apply w_gets. eapply wr_mut; [exact Hs|exact Hl|]. intro. kbh'.
      - unfold emacs_alt.
        destruct (is_char c "<") eqn:C1; [exfalso; apply He; apply N.eqb_eq in C1; subst; cbn; tauto|].
        destruct (is_char c ">") eqn:C2; [exfalso; apply He; apply N.eqb_eq in C2; subst; cbn; tauto|].
        destruct (N.eqb c c_del) eqn:Ed; [apply ok_lift; cbn [snd]; apply w_word; assumption|].
        destruct (is_char c "f") eqn:Ef.
        { apply N.eqb_eq in Ef. subst c. apply ok_lift; cbn [snd]. apply wr_hk; [exact Hs|auto with brw]. }
        destruct (is_char c "b") eqn:Eb.
        { apply N.eqb_eq in Eb. subst c. apply ok_lift; cbn [snd]. apply wr_hk; [exact Hs|auto with brw]. }
        destruct (is_char c "r") eqn:Er.
        { apply ok_bind, ok_lift. eapply ok_mono; [apply w_undo_like; assumption|]. intros a s' W. exact W. }
        destruct (is_char c ".") eqn:C3; [exfalso; apply He; apply N.eqb_eq in C3; subst; cbn; tauto|].
        apply ok_ret. apply wr_same; exact Hs.
      - apply w_ctrl; try assumption. apply is_char_ne. intros ->. congruence.
      - apply w_back. exact Z.
      - apply w_delete; assumption. }
    destruct k; apply ok_bind; try (apply ok_modk; apply G).
    destruct (is_char c "."); [apply ok_ret|apply ok_modk]; apply G.
  Qed.
End Core.

(** A key that edits either accepts the suggestion or reaches the key map. *)
Definition accepts (k : key) (s : ed) : Prop :=
  ed_sugg s <> None /\ (k = KRight /\ cursor_is_at_end_of_line s = Val true \/ k = KCtrl (ch "f")).
Definition reaches (k : key) (s : ed) : Prop :=
  ed_sugg s = None \/ k = KRight /\ cursor_is_at_end_of_line s = Val false \/ k <> KRight /\ k <> KCtrl (ch "f").
Lemma edits_handle : forall E k x s d y, edits k -> handle_key emacs_core E k (x, s) = ORet d y ->
  d = false /\
  (accepts k s /\ fst y = x /\ accept_autosuggestion E s = ORet tt (snd y) \/
   reaches k s /\ exists z, emacs_core E (shown_key k) (x, s) = ORet tt z /\ y = (fst z, set_hint None (snd z))).
Proof.
  intros E k x s d y He H. unfold handle_key, bind at 1 in H. cbn [gete] in H.
  unfold bind at 1 in H. destruct (cur_buf s) as [b|] eqn:Hb; [|discriminate]. cbv beta iota zeta in H.
  fold (shown_key k) in H.
  assert (F : (done <- (emacs_core E (shown_key k) ;;; mod_ed skip_completions_hint ;;; ret false) ;; if e_wok E then ret done else fail EOther) (x, s) = ORet d y ->
    d = false /\ exists z, emacs_core E (shown_key k) (x, s) = ORet tt z /\ y = (fst z, set_hint None (snd z))).
  { unfold bind. destruct (emacs_core E (shown_key k) (x, s)) as [[] [v1 s1]| | |]; try discriminate. cbn. destruct (e_wok E); [|discriminate].
    intro Q. injection Q as <- <-. split; [reflexivity|]. exists (v1, s1). auto. }
  assert (A : (done <- (lift (accept_autosuggestion E) ;;; ret false) ;; if e_wok E then ret done else fail EOther) (x, s) = ORet d y ->
    d = false /\ fst y = x /\ accept_autosuggestion E s = ORet tt (snd y)).
  { unfold bind, lift. destruct (accept_autosuggestion E s) as [[] s1| | |]; try discriminate. cbn. destruct (e_wok E); [|discriminate].
    intro Q. injection Q as <- <-. auto. }
  assert (F' : reaches k s -> (done <- (emacs_core E (shown_key k) ;;; mod_ed skip_completions_hint ;;; ret false) ;; if e_wok E then ret done else fail EOther) (x, s) = ORet d y ->
    d = false /\ (accepts k s /\ fst y = x /\ accept_autosuggestion E s = ORet tt (snd y) \/
   reaches k s /\ exists z, emacs_core E (shown_key k) (x, s) = ORet tt z /\ y = (fst z, set_hint None (snd z)))).
  { intros R Q. destruct (F Q) as [-> Q']. split; [reflexivity|]. right. auto. }
  destruct k; cbn [edits] in He; try contradiction;
    try (apply F'; [right; right; split; discriminate|exact H]).
  - destruct He as [H1 H2]. apply N.eqb_neq in H1, H2. cbn [shown_key] in H. rewrite H1, H2 in H.
    apply F'; [right; right; split; discriminate|exact H].
  - cbn [shown_key] in *. destruct (is_char c "h") eqn:Eh.
    { apply F'; [|exact H]. right; right. apply N.eqb_eq in Eh. subst c. split; [discriminate|]. intro C. vm_compute in C. discriminate. }
    assert (Z : forall x, In (ch x) [ch "c"; ch "p"; ch "n"; ch "r"; ch "s"] -> is_char c x = false).
    { intros x' Hx. apply is_char_ne. intros ->. contradiction. }
    rewrite (Z "c"%string), (Z "r"%string), (Z "s"%string) in H; try (cbn; tauto).
    destruct (is_char c "d" && buf_is_empty b).
    { unfold bind, fail in H. destruct (lift (handle_newline E) (x, s)); discriminate. }
    destruct (is_char c "f") eqn:Ef; cbn [andb] in H.
    + apply N.eqb_eq in Ef. subst c. unfold showing_autosuggestion in H. destruct (ed_sugg s) as [g|] eqn:Eg.
      * destruct (A H) as [-> [A1 A2]]. split; [reflexivity|]. left. split; [|auto]. split; [congruence|]. right. reflexivity.
      * apply F'; [left; exact Eg|exact H].
    + apply F'; [|exact H]. right; right. split; [discriminate|]. intro C. injection C as ->. discriminate.
  - cbn [shown_key] in *. unfold showing_autosuggestion in H. destruct (ed_sugg s) as [g|] eqn:Eg.
    + unfold bind at 2 in H. unfold bind in H at 1. destruct (cursor_is_at_end_of_line s) as [[|]|] eqn:Ec; try discriminate.
      * destruct (A H) as [-> [A1 A2]]. split; [reflexivity|]. left. split; [|auto]. split; [congruence|]. left. auto.
      * apply F'; [|exact H]. right; left. auto.
    + apply F'; [left; exact Eg|exact H].
Qed.

(** * Keys on a recalled line *)
Definition hist_is (c : list text) (s : ed) : Prop :=
  exists es, c = data (ed_hist s) :: es /\ undoes (actions (ed_hist s)) (data (ed_hist s)) es.
Lemma hist_same : forall c s s', hist_is c s -> ed_hist s' = ed_hist s -> hist_is c s'.
Proof. intros c s s' H E. unfold hist_is in *. rewrite E. exact H. Qed.

(** An entry as it is recalled. *)
Lemma copied_undoes : forall c s g, hist_is c s -> undoes (actions (copied (ed_hist s) g)) g ([] :: c).
Proof.
  intros c s g [es [-> H]]. unfold copied. cbn [actions].
  apply undoes_cons; try discriminate.
  - pose proof (astep_insert [] g []) as A. cbn [length app] in A. rewrite app_nil_r in A. exact A.
  - apply undoes_cons; try discriminate; [|exact H].
    pose proof (astep_remove [] (data (ed_hist s)) []) as A. cbn [length app] in A. rewrite app_nil_r in A. exact A.
Qed.
Lemma hist_nth : forall h i g, nth_error (texts h) i = Some g -> exists b, hist_get h i = Val b /\ data b = g.
Proof.
  intros h i g H. unfold texts in H. rewrite nth_error_map in H. unfold hist_get, index.
  destruct (nth_error (buffers h) i) as [b|]; [|discriminate]. injection H as <-. exists b. auto.
Qed.
Lemma nth_hist : forall h i b, nth_error (buffers h) i = Some b -> nth_error (texts h) i = Some (data b).
Proof. intros h i b H. unfold texts. rewrite nth_error_map, H. reflexivity. Qed.
Lemma recalled_state : forall h i g c s, ed_history s = h -> is_search s = false -> ed_noeol s = false -> ed_showauto s = true ->
  ed_loc s = Some i -> ed_hvalid s = false -> nth_error (texts h) i = Some g -> hist_is c s -> ed_cursor s = length g ->
  zsame (texts h) (Some i) (mkZ g [] ([] :: c)) s.
Proof.
  intros h i g c s Hh Hs Hn Ha Hl Hv Hg Hc Hp. destruct (hist_nth h i g Hg) as [b [B1 B2]].
  assert (Hb : cur_buf s = Val b) by (unfold cur_buf; rewrite Hl, Hv, Hh; exact B1).
  split.
  - exists (copied (ed_hist s) g). split.
    + split; [exact Hs|]. split; [|split; [exact Hp|exact Hn]]. exists b. split; [exact Hb|].
      unfold opened. rewrite Hl, Hv, B2. reflexivity.
    + split; [unfold zline; cbn; rewrite app_nil_r; reflexivity|]. apply copied_undoes. exact Hc.
  - repeat split; try assumption; [discriminate|congruence].
Qed.
Lemma edited_hist : forall hs i z s, zsame hs (Some i) z s -> ed_hvalid s = true -> hist_is (zline z :: earlier z) s.
Proof.
  intros hs i z s [[b [[_ [[b0 [B1 B2]] _]] [Hd Hu]]] [Hl _]] Hv. unfold cur_buf in B1. rewrite Hl, Hv in B1. injection B1 as <-.
  unfold opened in B2. rewrite Hl, Hv in B2. subst b. exists (earlier z). split; [rewrite Hd; reflexivity|exact Hu].
Qed.

(** The suggestion for a recalled line. *)
Lemma recalled_sugg : forall h i z s, ed_history s = h -> zstate (texts h) (Some i) z s ->
  match ed_sugg s with
  | Some g => ed_hvalid s = false /\ nth_error (texts h) i = Some (data g)
  | None => ed_hvalid s = true
  end.
Proof.
  intros h i z s Hh [[[b [[Hs _] _]] [Hl [_ [Ha _]]]] R]. unfold resugg, current_autosuggestion in R. destruct (ed_hvalid s).
  - injection R as <-. reflexivity.
  - rewrite Hs, Ha, Hl, Hh in R. destruct (hist_get h i) as [g|] eqn:Hg; [|discriminate]. injection R as <-. split; [reflexivity|].
    unfold hist_get, index in Hg. destruct (nth_error (buffers h) i) as [g'|] eqn:Hn; [|discriminate]. injection Hg as ->.
    apply nth_hist. exact Hn.
Qed.

Lemma recalled_accept : forall hs i E z s g, zstate hs (Some i) z s -> ed_sugg s = Some g -> data g = zline z ->
  ok (accept_autosuggestion E) s (fun _ s' => zstate hs (Some i) (change (zline z) [] z) s' /\ ed_hvalid s' = true /\
    ed_subloc s' = None /\ ed_new s' = ed_new s /\ ed_history s' = ed_history s).
Proof.
  intros hs i E z s g [Z R] Hg Hz. pose proof Z as [[b [V [Hd Hu]]] [Hl [_ [Ha Hh]]]].
  pose proof V as [Vs _]. unfold accept_autosuggestion. apply ok_bind, ok_get. rewrite Ha. cbn [when].
  apply ok_bind. pose proof V as [_ [[b0 [B1 B2]] _]]. unfold ok at 1. rewrite (with_cur_mut_eq _ s b0 B1), <- B2.
  rewrite Hg, Vs. unfold unit_op.
  replace (insert_from_buffer b g) with (insert_from_buffer b (buf_of (data g))) by reflexivity.
  unfold insert_from_buffer, slice. cbn [data buf_of]. rewrite Hz, <- Hd, !Nat.leb_refl. cbn [andb rbind].
  rewrite Nat.sub_diag. cbn [firstn]. rewrite (insert_app b (data b) [] []) by (rewrite app_nil_r; reflexivity). cbn [rbind].
  rewrite !app_nil_r. set (b' := mkBuf _ _ _). set (s1 := store b' s).
  apply ok_bind, ok_modify.
  assert (V1 : view s1 b' (length (before z)) false) by (eapply view_store; exact V).
  assert (S1 : stay s s1) by apply stay_store.
  assert (V2 : view (clear_search s1) b' (length (before z)) false).
  { destruct V1 as [_ [V2 [V3 V4]]]. split; [reflexivity|]. split; [exact V2|]. auto. }
  assert (Hv1 : ed_hvalid s1 = true) by (unfold s1, store; rewrite Hl; reflexivity).
  pose proof (h_move_end E (clear_search s1)) as K1. pose proof (r_move_end E (clear_search s1)) as K2.
  pose proof (ok_move_end E _ _ _ _ V2) as K3. unfold ok in *. destruct (move_cursor_to_end_of_line E (clear_search s1)) as [u s'| | |]; auto.
  rewrite clamp_le in K3 by lia. destruct (K1 eq_refl) as [_ [K4 _]]. destruct (K2 eq_refl) as [_ [K5 [_ [K6 _]]]].
  destruct S1 as [T1 [T2 [T3 [_ [_ [_ [_ [_ [T4 _]]]]]]]]].
  assert (Hl1 : ed_loc (clear_search s1) = Some i) by (change (ed_loc s1 = Some i); congruence).
  split; [|split; [rewrite K4; exact Hv1|split]].
  - assert (A : undoes (actions b') (data b') (zline z :: earlier z)).
    { unfold b'. cbn [actions data]. rewrite <- Hd. apply undoes_cons; try discriminate; [|exact Hu].
      pose proof (astep_insert (data b) [] []) as A. cbn [app] in A. rewrite !app_nil_r in A. exact A. }
    eapply (z_lands hs (Some i) (mkZ (before z) (after z) (zline z :: earlier z)) (clear_search s1)); [|exact K3| | |exact A].
    + split; [|repeat split; [exact Hl1|discriminate|change (ed_showauto s1 = true); congruence|change (texts (ed_history s1) = hs); congruence]].
      exists b'. split; [exact V2|]. split; [exact Hd|exact A].
    + unfold b', change. cbn [before data]. rewrite Hd. reflexivity.
    + unfold b', change, zline. cbn [before after data]. rewrite app_nil_r. reflexivity.
  - unfold pos in K5. injection K5 as _ _ K5 _ _. rewrite K5. reflexivity.
  - split; [|destruct (K2 eq_refl) as [K7 _]; rewrite K7; exact T2].
    rewrite K6 by congruence. apply T4. congruence.
Qed.

(** * The pure editor *)
Lemma put_line : forall n z, zline (put_cursor n z) = zline z /\ earlier (put_cursor n z) = earlier z.
Proof. intros n z. unfold put_cursor, zline at 1. cbn [before after earlier]. rewrite firstn_skipn. auto. Qed.
Lemma accept_none : forall z o, z_accept [] z o = o.
Proof. intros z o. unfold z_accept, suggestion. destruct (zline z); reflexivity. Qed.
Lemma core_key : forall words hs k z, edits k -> z_core hs words (shown_key k) z = z_key words [] k z.
Proof.
  intros words hs k z He. destruct k; try contradiction; try reflexivity.
  - cbn [shown_key]. destruct (is_char c "h") eqn:Eh; [unfold z_key; rewrite Eh; reflexivity|].
    unfold z_core, z_key. rewrite Eh. destruct (is_char c "f") eqn:Ef; [|reflexivity].
    apply N.eqb_eq in Ef. subst c. cbn. rewrite accept_none. reflexivity.
  - cbn [shown_key z_core z_key]. destruct (after z) eqn:Ea; [|reflexivity]. rewrite accept_none. apply (right_at_end _ default_increasing). exact Ea.
Qed.
Lemma shown_writes : forall words k z, writes words (shown_key k) z = writes words k z.
Proof.
  intros words k z. destruct k; try reflexivity. cbn [shown_key]. destruct (is_char c "h") eqn:Eh; [|reflexivity].
  unfold writes. rewrite Eh. reflexivity.
Qed.
Lemma shown_edits : forall k, edits k -> edits (shown_key k) /\ shown_key k <> KCtrl (ch "h").
Proof.
  intros k He. destruct k; try contradiction; try (split; [exact He|discriminate]). cbn [shown_key].
  destruct (is_char c "h") eqn:Eh; [split; [exact I|discriminate]|]. split; [exact He|]. intro C. injection C as ->. discriminate.
Qed.
Lemma quiet_key : forall words k z, writes words k z = false -> 
  zline (z_key words [] k z) = zline z /\ earlier (z_key words [] k z) = earlier z.
Proof.
  intros words k z W. assert (P : forall n, zline (put_cursor n z) = zline z /\ earlier (put_cursor n z) = earlier z) by (intro; apply put_line).
  destruct k; cbn [writes z_key] in *; try discriminate; try (split; reflexivity); try apply P.
  - destruct (is_char c "b") eqn:Eb; [unfold z_word_left; destruct (word_left words z); [apply P|auto]|].
    destruct (is_char c "f") eqn:Ef; [unfold z_word_right; destruct (word_right words z); [apply P|auto]|].
    destruct (N.eqb c c_del).
    + unfold z_kill_word. destruct (word_left words z); [discriminate|auto].
    + rewrite W. auto.
  - destruct (is_char c "h"); [unfold z_backspace; destruct (before z); [auto|discriminate]|].
    destruct (is_char c "w") eqn:Ew.
    + apply N.eqb_eq in Ew. subst c. change (zline (z_kill_word words z) = zline z /\ earlier (z_kill_word words z) = earlier z).
      unfold z_kill_word. destruct (word_left words z); [discriminate|auto].
    + apply orb_false_iff in W as [W Wx]. apply orb_false_iff in W as [W Wk]. apply orb_false_iff in W as [Wd Wu].
      rewrite Wx, Wk, Wd, Wu.
      destruct (is_char c "b"); [apply P|]. destruct (is_char c "f"); [rewrite accept_none; apply P|].
      destruct (is_char c "a"); [apply P|]. destruct (is_char c "e"); [apply P|auto].
  - destruct (after z); [rewrite accept_none; auto|apply P].
  - unfold z_backspace. destruct (before z); [auto|discriminate].
Qed.

(** * Moving through the history *)
Definition nk (s s' : ed) : Prop :=
  is_search s = false -> is_search s' = false /\ ed_new s' = ed_new s /\ ed_hist s' = ed_hist s /\ ed_showauto s' = ed_showauto s.
Lemma nk_refl : refl nk.
Proof. intros s Hs. auto. Qed.
Lemma nk_trans : trans nk.
Proof. intros a b c H1 H2 Hs. destruct (H1 Hs) as [A1 [A2 [A3 A4]]]. destruct (H2 A1) as [B1 [B2 [B3 B4]]]. repeat split; congruence. Qed.
Ltac nkd := intro; split; [first [assumption|reflexivity]|repeat split; reflexivity].
Lemma nk_display : forall E, keeps nk (display E).
Proof.
  intros E s. pose proof (display_out E s) as H. destruct (display E s) as [a s'|e s'|p|]; auto.
  - intro Hs. destruct H as [g [b [tcl [cb [tty [_ [_ ->]]]]]]]. rewrite (refreshed_plain _ Hs). unfold shown. revert Hs. nkd.
  - intro Hs. destruct H as [_ [g [c [tcl [cb [_ [-> _]]]]]]]. rewrite (refreshed_plain _ Hs). unfold shown. revert Hs. nkd.
Qed.
Lemma nk_get_cur : keeps nk get_cur.
Proof. intro s. unfold get_cur. destruct (cur_buf s); [apply nk_refl|exact I]. Qed.
#[export] Hint Resolve nk_display nk_get_cur : brw.
Ltac kn1 :=
  match goal with
  | |- keeps _ (modify _) => let s := fresh "s" in apply keeps_modify; intro s; cbv beta; first [reflexivity | solve [nkd] | idtac]
  | |- _ => kb1 nk_trans nk_refl
  end.
Lemma nk_move_end : forall E, keeps nk (move_cursor_to_end_of_line E).
Proof. intro E. unfold move_cursor_to_end_of_line. repeat kn1. Qed.
#[export] Hint Resolve nk_move_end : brw.
Lemma nk_search : forall {A} (m : ME A) s, is_search s = true -> match m s with ORet _ s' => nk s s' | OErr _ s' => nk s s' | OPanic _ => True | OFuel => True end.
Proof. intros A m s Hs. destruct (m s); auto; intro C; congruence. Qed.
Lemma nk_move_up : forall E, keeps nk (move_up E).
Proof.
  intros E s. destruct (is_search s) eqn:Hs; [apply nk_search; exact Hs|]. unfold move_up. rewrite bind_get, Hs.
  revert s Hs. match goal with |- forall s, _ -> match ?m s with _ => _ end => assert (K : keeps nk m); [|intros s _; exact (K s)] end.
  repeat kn1. unfold freshen_history. edsimp. destruct (_ && _); nkd.
Qed.
Lemma nk_move_down : forall E, keeps nk (move_down E).
Proof.
  intros E s. destruct (is_search s) eqn:Hs; [apply nk_search; exact Hs|]. unfold move_down. rewrite bind_get, Hs.
  revert s Hs. match goal with |- forall s, _ -> match ?m s with _ => _ end => assert (K : keeps nk m); [|intros s _; exact (K s)] end.
  repeat kn1.
Qed.

(** The suggestion is up to date afterwards. *)
Lemma sugg_display : forall E s, ok (display E) s (fun _ s' => resugg s').
Proof.
  intros E s. pose proof (display_out E s) as H. unfold ok. destruct (display E s) as [a s'|e s'|p|]; auto.
  destruct H as [g [b [tcl [cb [tty [H [_ ->]]]]]]]. exact H.
Qed.
Lemma sugg_seq : forall {A B} (m : ME A) (n : A -> ME B) s, (forall a s', ok (n a) s' (fun _ s2 => resugg s2)) -> ok (bind m n) s (fun _ s' => resugg s').
Proof. intros A B m n s H. apply ok_bind. apply ok_in. intros a s' _. apply H. Qed.
Lemma sugg_end : forall E s, ok (move_cursor_to_end_of_line E) s (fun _ s' => resugg s').
Proof.
  intros E s. unfold move_cursor_to_end_of_line. do 2 (apply sugg_seq; intros ? ?). apply sugg_display.
Qed.
Lemma sugg_up : forall E s, is_search s = false -> ok (move_up E) s (fun _ s' => resugg s').
Proof.
  intros E s Hs. unfold move_up. apply ok_bind, ok_get. rewrite Hs. do 3 (apply sugg_seq; intros ? ?). apply sugg_end.
Qed.
Lemma sugg_down : forall E s, is_search s = false -> ok (move_down E) s (fun _ s' => resugg s').
Proof.
  intros E s Hs. unfold move_down. apply ok_bind, ok_get. rewrite Hs. do 3 (apply sugg_seq; intros ? ?). apply sugg_end.
Qed.

(** * The new line, and what is put aside *)
Definition lk (s s' : ed) : Prop := is_search s = false -> ed_loc s = None -> is_search s' = false /\ ed_loc s' = None /\ ed_hist s' = ed_hist s.
Lemma lk_trans : trans lk.
Proof. intros a b c H1 H2 Hs Hl. destruct (H1 Hs Hl) as [A1 [A2 A3]]. destruct (H2 A1 A2) as [B1 [B2 B3]]. repeat split; congruence. Qed.
Lemma rk_lk : forall s s', rk s s' -> lk s s'.
Proof.
  intros s s' H Hs Hl. destruct (H Hs) as [_ [H1 [_ [_ H2]]]]. rewrite (pos_search _ _ H1), (pos_loc _ _ H1). auto.
Qed.
Lemma keeps_lk : forall {A} (m : ME A), keeps rk m -> keeps lk m.
Proof. intros A m H s. specialize (H s). destruct (m s); auto; apply rk_lk; exact H. Qed.
Lemma lk_accept : forall E, keeps lk (accept_autosuggestion E).
Proof.
  intro E. unfold accept_autosuggestion. apply (keeps_bind _ lk_trans); [intros s Hs Hl; auto|intro s0].
  apply (keeps_bind _ lk_trans).
  - unfold when. destruct (ed_showauto s0); [apply keeps_lk; auto with brw|intros s Hs Hl; auto].
  - intro. apply (keeps_bind _ lk_trans).
    + apply keeps_modify. intros s Hs Hl. auto.
    + intro. apply keeps_lk. auto with brw.
Qed.
Lemma lk_clear : forall E, keeps lk (clear E).
Proof.
  intro E. unfold clear. apply (keeps_bind _ lk_trans).
  - apply keeps_modify. intros s Hs Hl. auto.
  - intro. apply keeps_lk. auto with brw.
Qed.
Lemma modk_lift : forall {K} (f : K -> K) (m : ME unit) x s y, (modk f ;;; lift m) (x, s) = ORet tt y -> m s = ORet tt (snd y).
Proof.
  intros K f m x s y H. unfold bind, modk, lift in H. destruct (m s) as [[] s1| | |]; try discriminate.
  injection H as <-. reflexivity.
Qed.
Lemma ctrl_l : forall E c, is_char c "l" = true -> emacs_ctrl E c = clear E.
Proof. intros E c H. unfold emacs_ctrl. rewrite H. reflexivity. Qed.
Lemma core_ctrl : forall E c, emacs_core E (KCtrl c) = (modk (fun _ => mkEmacs None) ;;; lift (emacs_ctrl E c)).
Proof. intros E c. unfold emacs_core. reflexivity. Qed.
Lemma core_clear : forall E x s y, emacs_core E (KCtrl (ch "l")) (x, s) = ORet tt y -> clear E s = ORet tt (snd y).
Proof.
  intros E x s y. assert (L : is_char (ch "l") "l" = true) by reflexivity. revert L. generalize (ch "l") as c. intros c L H.
  rewrite core_ctrl in H. apply modk_lift in H. rewrite (ctrl_l E c L) in H. exact H.
Qed.
Lemma is_l : forall k, k = KCtrl (ch "l") \/ k <> KCtrl (ch "l").
Proof.
  intro k. destruct k; try (right; discriminate). destruct (N.eq_dec c (ch "l")) as [->|]; [left; reflexivity|right; congruence].
Qed.
Lemma core_hist : forall E k x s y, edits k -> is_search s = false -> ed_loc s = None -> emacs_core E k (x, s) = ORet tt y ->
  ed_hist (snd y) = ed_hist s.
Proof.
  intros E k x s y He Hs Hl H. destruct (is_l k) as [->|Hk].
  - apply core_clear in H. pose proof (lk_clear E s) as K. rewrite H in K. apply (K Hs Hl).
  - pose proof (r_core E k He Hk (x, s)) as K. rewrite H in K. destruct (K Hs) as [_ [_ [_ [_ K1]]]]. apply K1. exact Hl.
Qed.
Lemma core_new : forall E k x s y, edits k -> is_search s = false -> ed_loc s <> None -> emacs_core E k (x, s) = ORet tt y ->
  ed_new (snd y) = ed_new s /\ (if match k with KCtrl c => is_char c "l" | _ => false end then ed_subloc (snd y) = None else pos (snd y) = pos s).
Proof.
  intros E k x s y He Hs Hl H. destruct (is_l k) as [->|Hk].
  - change (is_char (ch "l") "l") with true. cbv iota. apply core_clear in H. rewrite clear_eq in H.
    match type of H with display E ?s1 = _ => pose proof (rk_display E s1) as K end. rewrite H in K.
    destruct (K eq_refl) as [_ [K1 [_ [K2 _]]]]. split; [apply K2; exact Hl|]. unfold pos in K1. injection K1 as _ _ K1 _ _. exact K1.
  - assert (F : match k with KCtrl c => is_char c "l" | _ => false end = false).
    { destruct k; try reflexivity. apply is_char_ne. congruence. }
    rewrite F. pose proof (r_core E k He Hk (x, s)) as K. rewrite H in K. destruct (K Hs) as [_ [K1 [_ [K2 _]]]]. auto.
Qed.

Section Book.
  Context (words : text -> list (nat * nat)) (Hinc : forall t, increasing (words t)) (h : history) (Hshare : h_share h = false).
  Notation hs := (texts h).

  Definition placed (t : text) (p : option nat) (s : ed) : Prop :=
    match p with
    | Some p => 0 < p /\ at_ h t (offers hs t) p s
    | None => t <> [] /\ ed_subloc s = None
    end.
  Definition away (b : book) (a : aside) (s : ed) : Prop := exists i,
    zstate hs (Some i) (line b) s /\ data (ed_new s) = typed a /\ undoes (actions (ed_new s)) (typed a) (typed_earlier a) /\
    nth_error hs i = Some (entry a) /\ ed_hvalid s = edited a /\
    (edited a = false -> hist_is (copy b) s /\ zline (line b) = entry a /\ earlier (line b) = [] :: copy b) /\
    offers hs (typed a) <> [] /\ placed (typed a) (place a) s.
  Definition agree (b : book) (s : ed) : Prop :=
    match off b with
    | None => zstate hs None (line b) s /\ hist_is (copy b) s
    | Some a => away b a s
    end.
  Definition Rb (b : book) (s : ed) : Prop := inv h s /\ agree b s.

  Lemma agree_hint : forall b s, agree b s -> agree b (set_hint None s).
  Proof.
    intros b s H. unfold agree in *. destruct (off b) as [a|].
    - destruct H as [i [Z H]]. exists i. split; [apply (z_hint hs (Some i) _ s Z)|exact H].
    - destruct H as [Z H]. split; [apply (z_hint hs None _ s Z)|exact H].
  Qed.
  Lemma copy_is : forall b s, agree b s -> hist_is (last_copy b) s.
  Proof.
    intros b s H. unfold agree, last_copy in *. destruct (off b) as [a|]; [|apply H].
    destruct H as [i [[Z _] [_ [_ [_ [Hv [He _]]]]]]]. destruct (edited a).
    - eapply edited_hist; [exact Z|exact Hv].
    - apply He. reflexivity.
  Qed.
  (** Forgetting the place. *)
  Lemma placed_forget : forall a s s', placed (typed a) (place a) s -> ed_history s' = ed_history s -> is_search s' = false ->
    ed_new s' = ed_new s -> ed_loc s' = ed_loc s -> ed_subloc s' = None -> placed (typed a) (forgotten a) s'.
  Proof.
    intros a s s' P H1 H2 H3 H4 H5. unfold forgotten. destruct (typed a) as [|c t] eqn:Et; [|split; [discriminate|exact H5]].
    destruct (place a) as [p|]; [|destruct P; congruence]. destruct P as [Hp [A1 [A2 [A3 [A4 [A5 _]]]]]]. split; [exact Hp|].
    split; [congruence|]. split; [exact H2|]. split; [congruence|]. split; [exact A4|]. split; [congruence|]. intro C. congruence.
  Qed.
  Lemma placed_keep : forall t p s s', placed t p s -> ed_history s' = ed_history s ->
    ed_new s' = ed_new s -> pos s' = pos s -> placed t p s'.
  Proof.
    intros t p s s' P H1 H2 H3. pose proof (pos_search _ _ H3) as K1. pose proof (pos_loc _ _ H3) as K2.
    unfold pos in H3. injection H3 as _ K3 K4 _ _. destruct p as [p|].
    - destruct P as [Hp [A1 [A2 [A3 [A4 [A5 A6]]]]]]. split; [exact Hp|].
      split; [congruence|]. split; [congruence|]. split; [congruence|]. split; [exact A4|]. split; [congruence|].
      rewrite K3, K4. exact A6.
    - destruct P as [P1 P2]. split; [exact P1|congruence].
  Qed.

  Lemma at_end_is : forall i z s, zsame hs (Some i) z s ->
    cursor_is_at_end_of_line s = Val (match after z with [] => true | _ => false end).
  Proof.
    intros i z s [[b [V [Hd _]]] _]. destruct (view_line _ _ _ _ V) as [b0 [B1 B2]]. destruct V as [_ [_ [Vc Vn]]].
    unfold cursor_is_at_end_of_line. rewrite B1, Vn, Vc. cbn [rbind]. unfold num_chars. rewrite B2, Hd. unfold zline. rewrite app_length.
    f_equal. destruct (after z); cbn [length]; [apply Nat.eqb_eq|apply Nat.eqb_neq]; lia.
  Qed.

  Lemma edit_step : forall E k b x s d y, edits k -> e_words E = words -> Rb b s ->
    handle_key emacs_core E k (x, s) = ORet d y -> d = false /\ agree (b_edit words hs k b) (snd y).
  Proof.
    intros E k b x s d y He HE [[Hh Hi] A] H. unfold agree, b_edit in *.
    destruct (edits_handle E k x s d y He H) as [-> C]. split; [reflexivity|].
    destruct (off b) as [a|] eqn:Eo.
    - destruct A as [i [Z [N1 [N2 [N3 [Hv [Hu [HL HP]]]]]]]]. pose proof Z as [[[b0 [[Hs _] _]] [Hl _]] _].
      pose proof (recalled_sugg h i _ s Hh Z) as G.
      assert (Hln : ed_loc s <> None) by congruence.
      destruct C as [[[S1 S2] [_ C]]|[Rc [[x1 s1] [C ->]]]].
      + (* accepted *)
        destruct (ed_sugg s) as [g|] eqn:Eg; [|congruence]. destruct G as [G1 G2].
        assert (Ed : edited a = false) by congruence. destruct (Hu Ed) as [U1 [U2 U3]].
        assert (T : takes k (line b) = true).
        { destruct S2 as [[-> S2]| ->]; [|reflexivity]. rewrite (at_end_is i _ s (proj1 Z)) in S2. cbn [takes].
          destruct (after (line b)); [reflexivity|discriminate]. }
        rewrite T, Ed. cbn [andb negb off line copy typed typed_earlier entry place edited].
        destruct (ok_of _ _ _ _ _ (recalled_accept hs i E _ s g Z Eg ltac:(congruence)) C) as [W1 [W2 [W3 [W4 W5]]]].
        pose proof W1 as [[[b1 [[Ws _] _]] [Wl _]] _].
        exists i. cbn [line copy typed typed_earlier entry place edited]. split; [exact W1|].
        split; [congruence|]. split; [rewrite W4; exact N2|]. split; [exact N3|]. split; [exact W2|].
        split; [discriminate|]. split; [exact HL|]. eapply placed_forget; eauto. congruence.
      + (* the key map *)
        assert (T : takes k (line b) && negb (edited a) = false).
        { destruct (takes k (line b)) eqn:T; [|reflexivity]. destruct (ed_sugg s) as [g|] eqn:Eg; [|rewrite <- Hv, G; reflexivity].
          exfalso. destruct Rc as [Rc|[[-> Rc]|[R1 R2]]]; [congruence| |].
          - rewrite (at_end_is i _ s (proj1 Z)) in Rc. cbn [takes] in T. destruct (after (line b)); discriminate.
          - destruct k; cbn [takes] in T; try discriminate; [|congruence]. apply N.eqb_eq in T. subst c. apply R2. reflexivity. }
        rewrite T. cbn [off line copy typed typed_earlier entry place edited].
        destruct (shown_edits k He) as [He' Hk'].
        pose proof (ok_of _ _ _ _ _ (zk_core hs (Some i) words Hinc E (shown_key k) (line b) x s He' Hk' HE Z) C) as W.
        pose proof (ok_of _ _ _ _ _ (w_core words Hinc hs i E (shown_key k) (line b) x s He' Hk' HE Z) C) as [Ws [Wv Wh]].
        destruct (core_new E (shown_key k) x s _ He' Hs Hln C) as [Wn Wp].
        cbn [snd] in *. rewrite (core_key words hs k (line b) He) in W. rewrite shown_writes in Wv, Wh.
        assert (Wi : ed_history s1 = ed_history s).
        { pose proof (i_emacs_core h Hshare E (shown_key k)) as Q.
          assert (Hne : shown_key k <> KAlt (ch ">")).
          { destruct k; try discriminate; [|cbn [shown_key]; destruct (is_char _ _); discriminate]. intro Q1. injection Q1 as ->. apply He. cbn. tauto. }
          specialize (Q Hne (x, s)). rewrite C in Q. destruct (Q (conj Hh Hi)) as [Q1 _]. cbn [snd] in Q1. congruence. }
        apply (agree_hint (mkBook _ _ (Some _))). exists i. cbn [line copy typed typed_earlier entry place edited].
        pose proof W as [[[b1 [[Ws' _] _]] [Wl _]] _].
        split; [exact W|]. split; [congruence|]. split; [rewrite Wn; exact N2|]. split; [exact N3|]. split; [congruence|].
        split.
        { intro Hw. apply orb_false_iff in Hw as [Hw1 Hw2]. destruct (Hu Hw1) as [U1 [U2 U3]].
          destruct (quiet_key words k (line b) Hw2) as [Q1 Q2]. split; [eapply hist_same; [exact U1|apply Wh; exact Hw2]|].
          split; congruence. }
        split; [exact HL|].
        assert (Cl : match shown_key k with KCtrl c => is_char c "l" | _ => false end = match k with KCtrl c => is_char c "l" | _ => false end).
        { destruct k; try reflexivity. cbn [shown_key]. destruct (is_char c "h") eqn:Eh; [|reflexivity].
          apply N.eqb_eq in Eh. subst c. reflexivity. }
        rewrite Cl in Wp. destruct (match k with KCtrl c => is_char c "l" | _ => false end) eqn:El.
        * destruct k; try discriminate. rewrite El. eapply placed_forget; eauto. congruence.
        * assert (Ep : match k with KCtrl c => if is_char c "l" then forgotten a else place a | _ => place a end = place a).
          { destruct k; try reflexivity. rewrite El. reflexivity. }
          rewrite Ep. eapply placed_keep; eauto.
    - cbn [off line copy]. destruct A as [Z Hc]. pose proof Z as [[[b0 [[Hs _] _]] [Hl _]] _].
      destruct (ok_of _ _ _ _ _ (zk_handle hs None words Hinc E k (line b) x s eq_refl He HE Z) H) as [_ W].
      split; [exact W|]. eapply hist_same; [exact Hc|].
      destruct C as [[_ [_ C]]|[_ [[x1 s1] [C ->]]]].
      + pose proof (lk_accept E s) as K. rewrite C in K. apply (K Hs Hl).
      + cbn [snd]. change (ed_hist (set_hint None s1)) with (ed_hist s1).
        destruct (shown_edits k He) as [He' _]. exact (core_hist E _ x s _ He' Hs Hl C).
  Qed.

  (** ** Up and down *)
  Lemma shows : forall t te q c s', 0 < q -> at_ h t (offers hs t) q s' -> ed_hvalid s' = false -> ed_noeol s' = false ->
    line_is s' (text_at t (offers hs t) q) (length (text_at t (offers hs t) q)) -> resugg s' -> ed_showauto s' = true ->
    hist_is c s' -> undoes (actions (ed_new s')) t te ->
    agree (show t te (nth (q - 1) (offers hs t) []) (Some q) c) s'.
  Proof.
    intros t te q c s' Hq HA Hv Hn [b [_ [_ Hp]]] R Ha Hc Hu. pose proof HA as [A1 [A2 [A3 [A4 [A5 _]]]]].
    destruct (idx_text h t (offers hs t) (offers_offered hs t) q ltac:(lia)) as [i [b' [E1 [E2 E3]]]].
    assert (Ht : text_at t (offers hs t) q = nth (q - 1) (offers hs t) []).
    { unfold text_at. destruct q as [|q]; [lia|]. cbn [nth]. f_equal. lia. }
    rewrite Ht in Hp. unfold agree, show. cbn [off]. exists i. cbn [line copy typed typed_earlier entry place edited].
    assert (Hg : nth_error hs i = Some (nth (q - 1) (offers hs t) [])) by (rewrite <- E3; apply nth_hist; exact E2).
    split; [split; [|exact R]; eapply recalled_state; eauto; congruence|].
    split; [exact A3|]. split; [exact Hu|]. split; [exact Hg|]. split; [exact Hv|].
    split; [intros _; split; [exact Hc|]; split; [unfold zline; cbn; apply app_nil_r|reflexivity]|].
    split; [|split; assumption]. intro C. rewrite C in A4. cbn in A4. lia.
  Qed.
  Lemma back : forall t te L c s', at_ h t L 0 s' -> ed_hvalid s' = false -> ed_noeol s' = false ->
    line_is s' t (length t) -> resugg s' -> ed_showauto s' = true -> hist_is c s' -> undoes (actions (ed_new s')) t te ->
    agree (mkBook (mkZ t [] te) c None) s'.
  Proof.
    intros t te L c s' [A1 [A2 [A3 [_ [A5 _]]]]] Hv Hn [b [_ [_ Hp]]] R Ha Hc Hu. cbn [idx] in A5.
    unfold agree. cbn [off line copy]. split; [|exact Hc]. split; [|exact R]. split.
    - exists (ed_new s'). split.
      + split; [exact A2|]. split; [|split; [exact Hp|exact Hn]]. exists (ed_new s'). unfold cur_buf, opened. rewrite A5. auto.
      + split; [unfold zline; cbn; rewrite app_nil_r; exact A3|]. rewrite A3. exact Hu.
    - repeat split; try assumption; [intros _; exact Hv|congruence].
  Qed.
  Lemma end_is : forall z, z_end z = mkZ (zline z) [] (earlier z).
  Proof. intro z. unfold z_end, put_cursor. rewrite firstn_all, skipn_all. reflexivity. Qed.

  Lemma move_facts : forall E (up : bool) t p s u s', at_ h t (offers hs t) p s -> ed_noeol s = false -> ed_showauto s = true ->
    (if up then move_up E s else move_down E s) = ORet u s' ->
    let q := step (offers hs t) up p in
    at_ h t (offers hs t) q s' /\ ed_hvalid s' = false /\ ed_noeol s' = false /\
    line_is s' (text_at t (offers hs t) q) (length (text_at t (offers hs t) q)) /\ resugg s' /\ ed_showauto s' = true /\
    ed_new s' = ed_new s /\ ed_hist s' = ed_hist s.
  Proof.
    intros E up t p s u s' HA Hn Ha H q. pose proof HA as [_ [Hs _]].
    destruct (move_step h t (offers hs t) Hshare (offers_offered hs t) E up p s u s' HA H) as [B1 [B2 [B3 B4]]].
    rewrite Hn in *. cbn [endc] in B4.
    assert (K : resugg s' /\ nk s s').
    { destruct up; split.
      - exact (ok_of _ _ _ _ _ (sugg_up E s Hs) H).
      - pose proof (nk_move_up E s) as K. rewrite H in K. exact K.
      - exact (ok_of _ _ _ _ _ (sugg_down E s Hs) H).
      - pose proof (nk_move_down E s) as K. rewrite H in K. exact K. }
    destruct K as [K1 K2]. destruct (K2 Hs) as [_ [K3 [K4 K5]]].
    split; [exact B1|]. split; [exact B2|]. split; [exact B3|]. split; [exact B4|]. split; [exact K1|]. split; [congruence|]. auto.
  Qed.

  Lemma up_forgotten : forall E t s, inv h s -> is_search s = false -> data (ed_new s) = t -> t <> [] -> ed_subloc s = None ->
    offers hs t <> [] -> move_up E s = move_up E (set_loc None s) /\ at_ h t (offers hs t) 0 (set_loc None s).
  Proof.
    intros E t s [Hh _] Hs Hd Ht Hl HL. split.
    - assert (F : forall s1, ed_history s1 = h -> freshen_history s1 = s1) by (intros s1 Q; unfold freshen_history; rewrite Q, Hshare; reflexivity).
      unfold move_up. rewrite !bind_get. change (is_search (set_loc None s)) with (is_search s). rewrite Hs, !bind_modify, !bind_get.
      rewrite !F by exact Hh.
      change (ed_new (set_hvalid false s)) with (ed_new s). change (ed_new (set_hvalid false (set_loc None s))) with (ed_new s).
      change (ed_subloc (set_hvalid false s)) with (ed_subloc s). change (ed_subloc (set_hvalid false (set_loc None s))) with (ed_subloc s).
      change (ed_history (set_hvalid false s)) with (ed_history s). change (ed_history (set_hvalid false (set_loc None s))) with (ed_history s).
      rewrite (num_cons h t (offers hs t) (offers_offered hs t) s Hd Ht), Hl. cbv zeta. rewrite subset_of, Hh, Hd.
      pose proof (sub_len h t (offers hs t) (offers_offered hs t) Ht) as Hn. fold (sub h t).
      rewrite !bind_assoc, !bind_modify. destruct (sub h t) as [|j js] eqn:Es.
      { exfalso. cbn in Hn. destruct (offers hs t); [congruence|discriminate]. }
      rewrite !bind_assoc. unfold liftr, bind at 1. unfold bind at 2. destruct (index (j :: js) _) as [l|]; [|reflexivity].
      rewrite !bind_modify. reflexivity.
    - split; [exact Hh|]. split; [exact Hs|]. split; [exact Hd|]. split; [lia|]. split; [reflexivity|]. intros _. exact Hl.
  Qed.
  Lemma down_forgotten : forall E b a s u s', off b = Some a -> place a = None -> Rb b s -> move_down E s = ORet u s' ->
    agree (show (typed a) (typed_earlier a) (entry a) None (last_copy b)) s'.
  Proof.
    intros E b a s u s' Ho Hp [[Hh _] A] H. pose proof (copy_is b s A) as Hc. unfold agree in A. rewrite Ho in A.
    destruct A as [i [Z [N1 [N2 [N3 [Hv [Hu [HL HP]]]]]]]]. rewrite Hp in HP. destruct HP as [Ht Hl].
    pose proof Z as [[[b0 [[Hs [_ [_ Hn]]] _]] [Hloc [_ [Ha _]]]] _].
    pose proof (ok_of _ _ _ _ _ (sugg_down E s Hs) H) as R.
    unfold move_down in H. rewrite bind_get, Hs, bind_modify, bind_get in H.
    change (ed_new (set_hvalid false s)) with (ed_new s) in H. change (ed_subloc (set_hvalid false s)) with (ed_subloc s) in H.
    rewrite (num_cons h (typed a) (offers hs (typed a)) (offers_offered hs (typed a)) s N1 Ht), Hl, bind_ret in H.
    destruct (hist_nth h i (entry a) N3) as [g [G1 G2]].
    assert (Hb : cur_buf (set_hvalid false s) = Val g) by (unfold cur_buf; edsimp; rewrite Hloc, Hh; exact G1).
    destruct (move_end_out E (set_hvalid false s) u s' g Hs Hb H) as [sg [tcl [cb [tty ->]]]].
    unfold agree, show. cbn [off]. exists i. cbn [line copy typed typed_earlier entry place edited].
    split.
    { split; [|exact R]. eapply recalled_state; try assumption; try reflexivity; [].
      change (clamp_cursor (ed_noeol s) (num_chars g) (num_chars g) = length (entry a)). rewrite Hn, clamp_le by lia. unfold num_chars. congruence. }
    split; [exact N1|]. split; [exact N2|]. split; [exact N3|]. split; [reflexivity|].
    split; [intros _; split; [exact Hc|]; split; [unfold zline; cbn; apply app_nil_r|reflexivity]|].
    split; [exact HL|]. split; [exact Ht|exact Hl].
  Qed.

  Lemma zstate_flags : forall at_ z s, zstate hs at_ z s -> is_search s = false /\ ed_noeol s = false /\ ed_showauto s = true /\ ed_loc s = at_.
  Proof. intros at_ z s [[[b [[Hs [_ [_ Hn]]] _]] [Hl [_ [Ha _]]]] _]. auto. Qed.
  Lemma new_line : forall z s, zstate hs None z s -> data (ed_new s) = zline z /\ undoes (actions (ed_new s)) (zline z) (earlier z).
  Proof.
    intros z s [[[b [[_ [[b0 [B1 B2]] _]] [Hd Hu]]] [Hl _]] _]. unfold cur_buf in B1. unfold opened in B2. rewrite Hl in *.
    injection B1 as <-. subst b. rewrite <- Hd. auto.
  Qed.

  Lemma up_agrees : forall E b s u s', Rb b s -> move_up E s = ORet u s' -> agree (b_up hs b) s'.
  Proof.
    intros E b s u s' HR H. pose proof HR as [Hi A]. pose proof (copy_is b s A) as Hc. unfold b_up. destruct (off b) as [a|] eqn:Eo.
    - unfold agree in A. rewrite Eo in A. destruct A as [i [Z [N1 [N2 [N3 [Hv [Hu [HL HP]]]]]]]].
      destruct (zstate_flags _ _ _ Z) as [Hs [Hn [Ha Hl]]]. cbv zeta.
      destruct (place a) as [p|] eqn:Ep.
      + destruct HP as [Hp HA].
        destruct (move_facts E true (typed a) p s u s' HA Hn Ha H) as [B1 [B2 [B3 [B4 [B5 [B6 [B7 B8]]]]]]].
        unfold step in *. apply shows; try assumption.
        * destruct (offers hs (typed a)); [congruence|]. cbn [length]. lia.
        * eapply hist_same; [exact Hc|exact B8].
        * rewrite B7. exact N2.
      + destruct HP as [Ht Hsl]. destruct (up_forgotten E (typed a) s Hi Hs N1 Ht Hsl HL) as [Q HA]. rewrite Q in H.
        destruct (move_facts E true (typed a) 0 _ u s' HA Hn Ha H) as [B1 [B2 [B3 [B4 [B5 [B6 [B7 B8]]]]]]].
        unfold step in *. assert (Hm : Nat.min (length (offers hs (typed a))) 1 = 1).
        { destruct (offers hs (typed a)); [congruence|]. cbn [length]. lia. }
        rewrite Hm in *. apply shows; try assumption; [lia| |].
        * eapply hist_same; [exact Hc|exact B8].
        * rewrite B7. exact N2.
    - unfold agree in A. unfold last_copy in Hc. rewrite Eo in A, Hc. destruct A as [Z _].
      destruct (zstate_flags _ _ _ Z) as [Hs [Hn [Ha Hl]]]. destruct (new_line _ _ Z) as [N1 N2].
      pose proof (inv_at h s (offers hs (zline (line b))) Hi Hs Hl) as HA. rewrite N1 in HA.
      destruct (move_facts E true (zline (line b)) 0 s u s' HA Hn Ha H) as [B1 [B2 [B3 [B4 [B5 [B6 [B7 B8]]]]]]].
      unfold step in *. destruct (offers hs (zline (line b))) as [|g gs] eqn:EL.
      + rewrite end_is. cbn [length Nat.min] in *. unfold text_at in B4. cbn [nth] in B4. eapply back; try eassumption.
        * eapply hist_same; [exact Hc|exact B8].
        * rewrite B7. exact N2.
      + replace (Nat.min (length (g :: gs)) 1) with 1 in * by (cbn [length]; lia).
        pose proof (shows (zline (line b)) (earlier (line b)) 1 (copy b) s') as K. rewrite EL in K. cbn [nth Nat.sub] in K.
        apply K; try assumption; [lia| |].
        * eapply hist_same; [exact Hc|exact B8].
        * rewrite B7. exact N2.
  Qed.
  Lemma down_agrees : forall E b s u s', Rb b s -> move_down E s = ORet u s' -> agree (b_down hs b) s'.
  Proof.
    intros E b s u s' HR H. pose proof HR as [Hi A]. pose proof (copy_is b s A) as Hc. unfold b_down. destruct (off b) as [a|] eqn:Eo.
    - destruct (place a) as [p|] eqn:Ep; [|eapply down_forgotten; eauto].
      unfold agree in A. rewrite Eo in A. destruct A as [i [Z [N1 [N2 [N3 [Hv [Hu [HL HP]]]]]]]].
      destruct (zstate_flags _ _ _ Z) as [Hs [Hn [Ha Hl]]]. rewrite Ep in HP. destruct HP as [Hp HA].
      destruct (move_facts E false (typed a) p s u s' HA Hn Ha H) as [B1 [B2 [B3 [B4 [B5 [B6 [B7 B8]]]]]]].
      unfold step in *. destruct p as [|[|p]]; [lia| |].
      + cbn [Nat.sub] in *. unfold text_at in B4. cbn [nth] in B4. eapply back; try eassumption.
        * eapply hist_same; [exact Hc|exact B8].
        * rewrite B7. exact N2.
      + pose proof (shows (typed a) (typed_earlier a) (S p) (last_copy b) s') as K.
        replace (S (S p) - 1) with (S p) in * by lia. replace (S (S p) - 2) with (S p - 1) by lia. apply K; try assumption; [lia| |].
        * eapply hist_same; [exact Hc|exact B8].
        * rewrite B7. exact N2.
    - unfold agree in A. unfold last_copy in Hc. rewrite Eo in A, Hc. destruct A as [Z _].
      destruct (zstate_flags _ _ _ Z) as [Hs [Hn [Ha Hl]]]. destruct (new_line _ _ Z) as [N1 N2].
      pose proof (inv_at h s (offers hs (zline (line b))) Hi Hs Hl) as HA. rewrite N1 in HA.
      destruct (move_facts E false (zline (line b)) 0 s u s' HA Hn Ha H) as [B1 [B2 [B3 [B4 [B5 [B6 [B7 B8]]]]]]].
      unfold step in *. cbn [Nat.sub] in *. unfold text_at in B4. cbn [nth] in B4. rewrite end_is. eapply back; try eassumption.
      * eapply hist_same; [exact Hc|exact B8].
      * rewrite B7. exact N2.
  Qed.

  Lemma book_step : forall E k b x s d y, booked k -> e_words E = words -> Rb b s ->
    handle_key emacs_core E k (x, s) = ORet d y -> d = false /\ Rb (b_key words hs k b) (snd y).
  Proof.
    intros E k b x s d y Hk HE HR H.
    assert (HI : inv h (snd y)).
    { assert (Hne : k <> KAlt (ch ">")) by (intros ->; apply Hk; cbn; tauto).
      assert (K : keeps (on_ed (invr h)) (handle_key emacs_core E k)).
      { apply (i_handle h Hshare). intros k' [-> | ->]; apply (i_emacs_core h Hshare); [exact Hne|discriminate]. }
      specialize (K (x, s)). rewrite H in K. apply K. apply HR. }
    assert (G : d = false /\ agree (b_key words hs k b) (snd y)); [|destruct G; split; [|split]; assumption].
    assert (Nv : forall up, emacs_nav x k = Some up -> d = false /\ agree (if up then b_up hs b else b_down hs b) (snd y)).
    { intros up N.
      assert (W : walks k).
      { destruct k; cbn [emacs_nav] in N; try discriminate; try exact I.
        destruct (is_char c "p") eqn:C1; [apply N.eqb_eq in C1; subst; cbn; auto|].
        destruct (is_char c "n") eqn:C2; [apply N.eqb_eq in C2; subst; cbn; auto|discriminate]. }
      destruct (walks_handle _ _ _ _ _ _ W H) as [-> [z [Hz ->]]]. split; [reflexivity|]. cbn [snd]. apply agree_hint.
      destruct (emacs_nav_core _ _ _ (x, s) _ N Hz) as [_ M]. cbn [snd] in M.
      destruct up; [eapply up_agrees; eauto|eapply down_agrees; eauto]. }
    assert (Ed : edits k -> b_key words hs k b = b_edit words hs k b -> d = false /\ agree (b_key words hs k b) (snd y)).
    { intros He ->. eapply edit_step; eauto. }
    destruct k; cbn [booked] in Hk; try (apply Ed; [exact Hk|reflexivity]).
    - cbn [b_key]. destruct (is_char c "p") eqn:C1; [apply (Nv true); cbn; rewrite C1; reflexivity|].
      destruct (is_char c "n") eqn:C2; [apply (Nv false); cbn; rewrite C1, C2; reflexivity|].
      cbn [b_key] in Ed. rewrite C1, C2 in Ed. apply Ed; [|reflexivity]. cbn [edits].
      intros [<-|[<-|[<-|[<-|[<-|[]]]]]]; try discriminate; apply Hk; cbn; tauto.
    - apply (Nv true). reflexivity.
    - apply (Nv false). reflexivity.
  Qed.
  Lemma book_run : forall l b x s d y, Forall (fun y => booked (snd y) /\ e_words (fst y) = words) l -> Rb b s ->
    run_keys emacs_core l (x, s) = ORet d y -> d = false /\ Rb (fold_left (fun b k => b_key words hs k b) (map snd l) b) (snd y).
  Proof.
    induction l as [|[E k] l IH]; intros b x s d y Hl HR H; cbn [run_keys map fold_left] in *.
    - injection H as <- <-. auto.
    - destruct (Forall_inv Hl) as [H1 H2]. pose proof (Forall_inv_tail Hl) as H3. cbn [fst snd] in *. unfold bind in H.
      destruct (handle_key emacs_core E k (x, s)) as [d1 [x1 s1]| | |] eqn:Eh; try discriminate.
      destruct (book_step E k b x s d1 _ H1 H2 HR Eh) as [-> HR1]. cbn [snd] in HR1.
      apply (IH _ x1 s1 d y H3 HR1 H).
  Qed.
End Book.

Lemma new_hist : forall E p f ib h w cb ttys s, editor_new E p f ib h w cb ttys = ORet tt s -> ed_hist s = mkBuf [] [] [].
Proof.
  intros E p f ib h w cb ttys s H. unfold editor_new in H. cbv zeta in H. destruct (e_wok E); [|discriminate].
  cbn [negb] in H. set (s0 := mkEd _ _ _ _ _ _ _ _ _ _ _ _ _ _ _ _ _ _ _ _ _ _) in H.
  match type of H with ?m s0 = _ => assert (K : keeps nk m) end.
  { assert (T : forall t, keeps nk (tty_write E t)) by (intros t s1; unfold tty_write; destruct (e_wok E); nkd).
    repeat kn1. }
  specialize (K s0). rewrite H in K. destruct (K eq_refl) as [_ [_ [K1 _]]]. exact K1.
Qed.

Lemma agree_line : forall h b s, agree h b s -> line_is s (zline (line b)) (length (before (line b))).
Proof.
  intros h b s A. unfold agree in A.
  assert (V : exists at_, zstate (texts h) at_ (line b) s).
  { destruct (off b) as [a|]; [destruct A as [i [Z _]]; eauto|destruct A as [Z _]; eauto]. }
  destruct V as [at_ [[[b1 [V [Hb _]]] _] _]].
  destruct (view_line _ _ _ _ V) as [b0 [B1 B2]]. exists b0. split; [exact B1|]. split; [congruence|].
  exact (proj1 (proj2 (proj2 V))).
Qed.

Theorem emacs_book : forall words E p f ib h w cb ttys s l d x s',
  (forall t, increasing (words t)) -> h_share h = false -> actions ib = [] ->
  editor_new E p f ib h w cb ttys = ORet tt s ->
  Forall (fun y => booked (snd y) /\ e_words (fst y) = words) l ->
  run_keys emacs_core l (emacs_new, s) = ORet d (x, s') ->
  d = false /\
  let b := fold_left (fun b k => b_key words (texts h) k b) (map snd l) (mkBook (mkZ (data ib) [] []) [[]] None) in
  line_is s' (zline (line b)) (length (before (line b))).
Proof.
  intros words E p f ib h w cb ttys s l d x s' Hw Hsh Ha H0 Hl H.
  assert (HR : Rb h (mkBook (mkZ (data ib) [] []) [[]] None) s).
  { split; [eapply inv_new; exact H0|]. split; [eapply z_new; eauto|].
    exists []. pose proof (new_hist _ _ _ _ _ _ _ _ _ H0) as K. rewrite K. split; [reflexivity|constructor]. }
  destruct (book_run words Hw h Hsh l _ emacs_new s d (x, s') Hl HR H) as [-> [_ A]]. split; [reflexivity|]. cbv zeta. cbn [snd] in A.
  apply (agree_line h). exact A.
Qed.

(** * Taking back what was typed *)
Lemma line_type : forall words hs c b, line (b_key words hs (KChar c) b) = z_type c (line b).
Proof. intros words hs c b. cbn [b_key]. unfold b_edit. destruct (off b); reflexivity. Qed.
Lemma line_undo : forall words hs b, line (b_key words hs (KCtrl (ch "x")) b) = z_undo (line b).
Proof. intros words hs b. unfold b_key, b_edit. destruct (off b); reflexivity. Qed.
Lemma type_undo : forall words hs w b, let b' := fold_left (fun b k => b_key words hs k b) (map KChar w ++ repeat (KCtrl (ch "x")) (length w)) b in
  zline (line b') = zline (line b) /\ earlier (line b') = earlier (line b) /\ (w <> [] -> after (line b') = []).
Proof.
  intros words hs. induction w as [|c w IH]; intro b; cbv zeta.
  - split; [reflexivity|]. split; [reflexivity|congruence].
  - cbn [map app length fold_left]. change (repeat (KCtrl (ch "x")) (S (length w))) with (KCtrl (ch "x") :: repeat (KCtrl (ch "x")) (length w)).
    rewrite repeat_cons, app_assoc, fold_left_app. cbn [fold_left]. rewrite line_undo.
    destruct (IH (b_key words hs (KChar c) b)) as [_ [I2 _]]. cbv zeta in I2. rewrite line_type in I2. cbn [z_type change earlier] in I2.
    unfold z_undo. rewrite I2. unfold zline at 1. cbn [before after earlier]. rewrite app_nil_r. auto.
Qed.
Lemma book_undo : forall words E p f ib h w cb ttys s l t d0 x0 s0 c d x s' ks,
  (forall t, increasing (words t)) -> h_share h = false -> actions ib = [] ->
  editor_new E p f ib h w cb ttys = ORet tt s ->
  Forall (fun y => booked (snd y) /\ e_words (fst y) = words) l ->
  run_keys emacs_core l (emacs_new, s) = ORet d0 (x0, s0) -> line_is s0 t c ->
  Forall (fun y => e_words (fst y) = words) ks ->
  (exists typed, ~ In c_tab typed /\ ~ In c_nl typed /\ typed <> [] /\
    map snd ks = map KChar typed ++ repeat (KCtrl (ch "x")) (length typed)) ->
  run_keys emacs_core ks (x0, s0) = ORet d (x, s') ->
  d = false /\ line_is s' t (length t).
Proof.
  intros words E p f ib h w cb ttys s l t d0 x0 s0 c d x s' ks Hw Hsh Ha H0 Hl H1 L Hks [ty [T1 [T2 [T3 T4]]]] H2.
  assert (HR : Rb h (mkBook (mkZ (data ib) [] []) [[]] None) s).
  { split; [eapply inv_new; exact H0|]. split; [eapply z_new; eauto|].
    exists []. pose proof (new_hist _ _ _ _ _ _ _ _ _ H0) as K. rewrite K. split; [reflexivity|constructor]. }
  destruct (book_run words Hw h Hsh l _ emacs_new s d0 (x0, s0) Hl HR H1) as [_ HR0]. cbn [snd] in HR0.
  set (b := fold_left _ _ _) in HR0.
  assert (Hks' : Forall (fun y => booked (snd y) /\ e_words (fst y) = words) ks).
  { apply Forall_forall. intros y Hy. rewrite Forall_forall in Hks. split; [|apply Hks; exact Hy].
    assert (Hi : In (snd y) (map snd ks)) by (apply in_map; exact Hy). rewrite T4 in Hi. apply in_app_iff in Hi as [Hi|Hi].
    - apply in_map_iff in Hi as [c0 [<- Hi]]. split; intros ->; contradiction.
    - apply repeat_spec in Hi. rewrite Hi. cbn. intros [C|[C|[C|[]]]]; discriminate. }
  destruct (book_run words Hw h Hsh ks b x0 s0 d (x, s') Hks' HR0 H2) as [-> HR1]. split; [reflexivity|]. cbn [snd] in HR1.
  rewrite T4 in HR1. destruct (type_undo words (texts h) ty b) as [U1 [_ U3]]. cbv zeta in U1, U3. set (b' := fold_left _ _ b) in *.
  destruct (agree_line h b s0 (proj2 HR0)) as [g [G1 [G2 _]]]. destruct (agree_line h b' s' (proj2 HR1)) as [g' [G3 [G4 G5]]].
  destruct L as [g0 [L1 [L2 _]]]. exists g'. split; [exact G3|]. assert (g0 = g) by congruence. subst g0.
  split; [congruence|]. rewrite G5. specialize (U3 T3). unfold zline in U1 at 1. rewrite U3, app_nil_r in U1. congruence.
Qed.
