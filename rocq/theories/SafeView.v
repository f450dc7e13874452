(** The line during a search as well: the text and the cursor after each of the editor's methods. *)
From Verif Require Import Base Utf8 BufferModel UtilModel HistoryModel EditorState EditorModel
  KeymapModel MonadLemmas EditorLemmas CursorProofs Lemmas BufferSpec BufferProofs TextProofs UtilSpec UtilProofs
  HistorySpec HistoryProofs EditorSpec EditorProofs SuggestProofs EditorOps SafeProofs SafeEditor.
Local Open Scope monad_scope.

(** The buffer an edit would change is [b], the cursor is at [c], and [e] says whether the cursor must
    stay before the end.  A search changes the new line. *)
Definition view (s : ed) (b : buffer) (c : nat) (e : bool) : Prop :=
  (is_search s = true -> ed_loc s = None) /\ (exists b0, cur_buf s = Val b0 /\ b = opened s b0) /\
  ed_cursor s = c /\ ed_noeol s = e.
Definition lands (s : ed) (b : buffer) (c : nat) (e : bool) (s' : ed) : Prop := view s' b c e /\ True.

Lemma view_line : forall s b c e, view s b c e ->
  exists b0, cur_buf s = Val b0 /\ data b0 = data b.
Proof. intros s b c e [_ [[b0 [H ->]] _]]. exists b0. rewrite data_opened. auto. Qed.
Lemma view_of : forall s b, (is_search s = true -> ed_loc s = None) -> cur_buf s = Val b ->
  view s (opened s b) (ed_cursor s) (ed_noeol s).
Proof. intros s b H1 H2. split; [exact H1|]. split; [exists b; auto|]. auto. Qed.
Lemma view_cursor : forall n s b c e, view s b c e -> view (set_cursor n s) b n e.
Proof. intros n s b c e [H1 [H2 [H3 H4]]]. split; [exact H1|]. split; [exact H2|]. auto. Qed.
Lemma view_store : forall b' s b c e, view s b c e -> view (store b' s) b' c e.
Proof.
  intros b' s b c e [H1 [H2 [H3 H4]]].
  split; [rewrite store_search; intro K; specialize (H1 K); unfold store; rewrite H1; edsimp; exact H1|].
  split; [|rewrite store_cursor, store_noeol; auto].
  exists b'. split; [apply cur_store|]. unfold opened, store. destruct (ed_loc s) eqn:El; edsimp; rewrite El; reflexivity.
Qed.
Lemma view_noeol : forall e' s b c e, view s b c e -> view (set_noeol e' s) b c e'.
Proof. intros n s b c e [H1 [H2 [H3 H4]]]. split; [exact H1|]. split; [exact H2|]. auto. Qed.
Lemma view_prompt : forall p s b c e, view s b c e -> view (set_prompt p s) b c e.
Proof. intros n s b c e [H1 [H2 [H3 H4]]]. split; [exact H1|]. split; [exact H2|]. auto. Qed.
Lemma view_refreshed : forall s b c e, view s b c e -> view (refreshed s) b c e.
Proof.
  intros s b c e V. unfold refreshed. destruct (is_search s) eqn:Es; cbn [andb]; [|exact V]. destruct (ed_changed s); [|exact V].
  destruct V as [H1 [[b0 [H2 H2']] [H3 H4]]]. specialize (H1 Es). unfold refresh_search. split; [intros _; reflexivity|].
  split; [|edsimp; auto]. exists b0. unfold cur_buf, opened in *. edsimp. rewrite H1 in H2, H2'. auto.
Qed.

Lemma ok_display : forall E s b c e, view s b c e ->
  ok (display E) s (fun _ s' => lands s b (clamp_cursor e (length (data b)) c) e s').
Proof.
  intros E s b c e V. apply view_refreshed in V. unfold ok, lands. rewrite display_eq. revert V. generalize (refreshed s). clear s. intros s V.
  destruct (current_autosuggestion s) as [g|p]; [|exact I]. apply (ok_wp (display_impl E true) (set_sugg g s) (fun _ s' => view s' b (clamp_cursor e (length (data b)) c) e /\ True) (fun _ _ => True) (fun _ => True)).
  pose proof V as [H1 [[b0 [H2 H5]] [H3 H4]]].
  apply wp_display_impl; [|intros; exact I|intros; exact I].
  intros b1 tcl cb tty Hb1. change (cur_buf (set_sugg g s)) with (cur_buf s) in Hb1. assert (b1 = b0) by congruence. subst b1.
  split; [|exact I]. change (ed_noeol (set_sugg g s)) with (ed_noeol s). change (ed_cursor (set_sugg g s)) with (ed_cursor s).
  rewrite H3, H4. replace (num_chars b0) with (length (data b)) by (subst b; rewrite data_opened; reflexivity).
  split; [exact H1|]. split; [exists b0; split; [exact H2|exact H5]|]. split; [reflexivity|exact H4].
Qed.

Lemma ok_get_cur : forall s b c e, view s b c e ->
  ok get_cur s (fun x s' => s' = s /\ data x = data b).
Proof.
  intros s b c e V. destruct (view_line _ _ _ _ V) as [b0 [H1 H2]]. unfold ok, get_cur.
  rewrite H1. auto.
Qed.
Lemma ok_goto : forall E n s b c e, view s b c e ->
  ok (modify (set_cursor n) ;;; display E) s
     (fun _ s' => lands s b (clamp_cursor e (length (data b)) n) e s').
Proof.
  intros E n s b c e V. apply ok_bind, ok_modify.
  eapply ok_mono; [apply (ok_display E _ _ _ _ (view_cursor n _ _ _ _ V))|].
  auto.
Qed.
Lemma ok_move_end : forall E s b c e, view s b c e ->
  ok (move_cursor_to_end_of_line E) s
     (fun _ s' => lands s b (clamp_cursor e (length (data b)) (length (data b))) e s').
Proof.
  intros E s b c e V. unfold move_cursor_to_end_of_line.
  eapply ok_seq; [apply (ok_get_cur _ _ _ _ V)|]. intros x s' [-> Hx]. unfold num_chars. rewrite Hx.
  apply (ok_goto E _ _ _ _ _ V).
Qed.
Lemma ok_move_start : forall E s b c e, view s b c e ->
  ok (move_cursor_to_start_of_line E) s (fun _ s' => lands s b 0 e s').
Proof.
  intros E s b c e V. unfold move_cursor_to_start_of_line. eapply ok_mono; [apply (ok_goto E _ _ _ _ _ V)|].
  cbv beta. intros _ s'.
  replace (clamp_cursor e (length (data b)) 0) with 0; [auto|].
  unfold clamp_cursor. destruct (length (data b)); cbn; destruct e; reflexivity.
Qed.
Lemma ok_move_to : forall E n s b c e, view s b c e ->
  ok (move_cursor_to E n) s
     (fun _ s' => lands s b (clamp_cursor e (length (data b)) (Nat.min n (length (data b)))) e s').
Proof.
  intros E n s b c e V. unfold move_cursor_to.
  eapply ok_seq; [apply (ok_get_cur _ _ _ _ V)|]. intros x s' [-> Hx]. unfold num_chars. rewrite Hx.
  eapply ok_mono; [apply (ok_goto E _ _ _ _ _ V)|]. cbv beta. intros _ s'.
  replace (Nat.min n (length (data b)))
    with (if length (data b) <? n then length (data b) else n); [auto|].
  destruct (length (data b) <? n) eqn:En; [apply Nat.ltb_lt in En|apply Nat.ltb_ge in En]; lia.
Qed.
Lemma ok_move_left : forall E n s b c e, view s b c e ->
  ok (move_cursor_left E n) s
     (fun _ s' => lands s b (clamp_cursor e (length (data b)) (c - n)) e s').
Proof.
  intros E n s b c e V. unfold move_cursor_left. apply ok_bind, ok_modify.
  destruct V as [V1 [V2 [V3 V4]]] eqn:EV. clear EV. rewrite V3.
  replace (c - (if c <? n then c else n)) with (c - n).
  2: { destruct (c <? n) eqn:En; [apply Nat.ltb_lt in En|apply Nat.ltb_ge in En]; lia. }
  eapply ok_mono; [apply (ok_display E _ b (c - n) e)|].
  - split; [exact V1|]. split; [exact V2|]. auto.
  - auto.
Qed.
Lemma ok_move_right : forall E n s b c e, view s b c e ->
  ok (move_cursor_right E n) s
     (fun _ s' => lands s b (clamp_cursor e (length (data b)) (Nat.min (c + n) (length (data b)))) e s').
Proof.
  intros E n s b c e V. unfold move_cursor_right.
  eapply ok_seq; [apply (ok_get_cur _ _ _ _ V)|]. intros x s' [-> Hx]. unfold num_chars. rewrite Hx.
  apply ok_bind, ok_get, ok_bind, ok_liftr. intros room Hroom. apply ok_bind, ok_modify.
  pose proof V as [V1 [V2 [V3 V4]]]. rewrite V3 in *.
  unfold sub_chk in Hroom. destruct (c <=? length (data b)) eqn:Ec; [|discriminate].
  injection Hroom as <-. apply Nat.leb_le in Ec.
  set (n' := c + _). replace (Nat.min (c + n) (length (data b))) with n'.
  2: { unfold n'. destruct (length (data b) - c <? n) eqn:En; [apply Nat.ltb_lt in En|apply Nat.ltb_ge in En]; lia. }
  eapply ok_mono; [apply (ok_display E _ b n' e)|].
  - split; [exact V1|]. split; [exact V2|]. auto.
  - auto.
Qed.
Lemma ok_mut : forall {A} (f : buffer -> res (A * buffer)) s b c e, view s b c e ->
  ok (with_cur_mut f) s (fun a s' => exists b', f b = Val (a, b') /\ view s' b' c e /\ True).
Proof.
  intros A f s b c e V. pose proof V as [_ [[b0 [H1 H2]] _]].
  unfold ok. rewrite (with_cur_mut_eq f s b0 H1), <- H2.
  destruct (f b) as [[a b']|p]; [|exact I]. exists b'. split; [reflexivity|].
  split; [apply (view_store _ _ _ _ _ V)|exact I].
Qed.
Lemma ok_insert : forall E t s b c e a r, view s b c e -> data b = a ++ r -> length a = c ->
  ok (insert_chars_after_cursor E t) s
     (fun _ s' => lands s (put b a t r)
                    (clamp_cursor e (length (a ++ t ++ r)) (length (a ++ t))) e s').
Proof.
  intros E t s b c e a r V Hd Ha. unfold insert_chars_after_cursor. apply ok_bind, ok_gets.
  eapply ok_seq; [apply (ok_mut _ _ _ _ _ V)|]. intros u s1 [b' [Hf [V1 S1]]].
  unfold unit_op in Hf. pose proof V as [_ [_ [Hc _]]]. rewrite Hc, <- Ha in Hf.
  rewrite (insert_app b a r t Hd) in Hf. cbn [rbind] in Hf. injection Hf as _ <-.
  apply ok_bind, ok_modify. pose proof V1 as [_ [_ [Hc1 _]]]. rewrite Hc1.
  eapply ok_mono; [apply (ok_display E _ _ _ _ (view_cursor (c + length t) _ _ _ _ V1))|].
  intros x s' [H1 _]. unfold put. cbn [data] in H1. replace (length (a ++ t)) with (c + length t) by (rewrite app_length; lia).
  split; [exact H1|exact I].
Qed.
Lemma ok_delete_after : forall E s b c e, view s b c e ->
  ok (delete_after_cursor E) s (fun _ s' =>
    (length (data b) <= c /\ lands s b (clamp_cursor e (length (data b)) c) e s') \/
    exists a x r, data b = a ++ [x] ++ r /\ length a = c /\
      lands s (cut b a [x] r) (clamp_cursor e (length (a ++ r)) c) e s').
Proof.
  intros E s b c e V. unfold delete_after_cursor. apply ok_bind, ok_gets.
  pose proof V as [_ [_ [Hc _]]]. rewrite Hc.
  eapply ok_seq; [apply (ok_mut _ _ _ _ _ V)|]. intros u s1 [b' [Hf [V1 S1]]].
  unfold num_chars in Hf. destruct (c <? length (data b)) eqn:El.
  - apply Nat.ltb_lt in El. destruct (buf_remove b c (c + 1)) as [[k y]|p] eqn:Hk; [|discriminate].
    cbn [rbind] in Hf. injection Hf as _ <-.
    destruct (remove_cut _ _ _ _ _ Hk) as [a [m [r [H1 [H2 [H3 [H4 [_ ->]]]]]]]].
    destruct m as [|x [|y m]]; cbn [length] in H3; try lia.
    eapply ok_mono; [apply (ok_display E _ _ _ _ V1)|]. intros _ s' [K1 _].
    right. exists a, x, r. split; [exact H1|]. split; [exact H2|]. split; [exact K1|exact I].
  - apply Nat.ltb_ge in El. injection Hf as _ <-.
    eapply ok_mono; [apply (ok_display E _ _ _ _ V1)|]. intros _ s' [K1 _].
    left. split; [exact El|]. split; [exact K1|exact I].
Qed.
