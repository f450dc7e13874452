(** Proofs about single editor methods. *)
From Verif Require Import Base Utf8 BufferModel UtilModel HistoryModel EditorState EditorModel
  KeymapModel MonadLemmas EditorLemmas CursorProofs Lemmas BufferSpec BufferProofs BufferGroups
  TextProofs HistorySpec HistoryProofs EditorSpec ErrorProofs.
From Coq Require Import Sorting.Sorted Sorting.Permutation.
Local Open Scope monad_scope.

(** * The current buffer *)

Definition copied (b : buffer) (t : text) : buffer :=
  mkBuf t (AInsert 0 t :: ARemove 0 (data b) :: actions b) [].

Lemma copy_buffer_eq : forall b o, copy_buffer b o = Val (copied b (data o)).
Proof.
  intros b o. unfold copy_buffer.
  pose proof (remove_app b [] (data b) []) as Hr. cbn [length Nat.add app] in Hr.
  rewrite Hr by (rewrite app_nil_r; reflexivity). cbn [rbind].
  match goal with |- buf_insert ?b1 _ _ = _ => pose proof (insert_app b1 [] [] (data o) eq_refl) as Hi end.
  cbn [length app] in Hi. rewrite Hi. rewrite app_nil_r. reflexivity.
Qed.

(** The buffer [cur_buf_mut!] hands out when [cur_buf!] is [b], and the state
    after it has become [b']. *)
Definition opened (s : ed) (b : buffer) : buffer :=
  match ed_loc s with
  | Some _ => if ed_hvalid s then b else copied (ed_hist s) (data b)
  | None => b
  end.
Definition store (b : buffer) (s : ed) : ed :=
  match ed_loc s with
  | Some _ => set_hist b (set_hvalid true (set_changed true s))
  | None => set_new b (set_changed true s)
  end.

Lemma data_opened : forall s b, data (opened s b) = data b.
Proof. intros s b. unfold opened. destruct (ed_loc s); [|reflexivity]. destruct (ed_hvalid s); reflexivity. Qed.
Lemma cur_store : forall b s, cur_buf (store b s) = Val b.
Proof. intros b s. unfold cur_buf, store. destruct (ed_loc s) eqn:E; edsimp; rewrite E; reflexivity. Qed.

Lemma with_cur_mut_eq : forall {A} (f : buffer -> res (A * buffer)) s b, cur_buf s = Val b ->
  with_cur_mut f s = match f (opened s b) with
                     | Val (a, b') => ORet a (store b' s)
                     | Pan p => OPanic p
                     end.
Proof.
  intros A f s b H. unfold with_cur_mut, bind, cur_prep, cur_upd, cur_buf, opened, store in *. edsimp.
  destruct (ed_loc s) as [i|] eqn:El.
  - destruct (ed_hvalid s) eqn:Ev.
    + edsimp. rewrite El. injection H as ->. destruct (f b) as [[a b']|p]; [|reflexivity].
      f_equal. destruct s; cbn in *. subst. reflexivity.
    + rewrite H, copy_buffer_eq. edsimp. rewrite El.
      destruct (f (copied (ed_hist s) (data b))) as [[a b']|p]; [|reflexivity]. reflexivity.
  - edsimp. rewrite El. injection H as ->. destruct (f b) as [[a b']|p]; reflexivity.
Qed.

(** Fields [store] leaves alone. *)
Lemma store_loc : forall b s, ed_loc (store b s) = ed_loc s.
Proof. intros b s. unfold store. destruct (ed_loc s) eqn:E; edsimp; auto. Qed.
Lemma store_cursor : forall b s, ed_cursor (store b s) = ed_cursor s.
Proof. intros b s. unfold store. destruct (ed_loc s); reflexivity. Qed.
Lemma store_noeol : forall b s, ed_noeol (store b s) = ed_noeol s.
Proof. intros b s. unfold store. destruct (ed_loc s); reflexivity. Qed.
Lemma store_hint : forall b s, ed_hint (store b s) = ed_hint s.
Proof. intros b s. unfold store. destruct (ed_loc s); reflexivity. Qed.
Lemma store_search : forall b s, is_search (store b s) = is_search s.
Proof. intros b s. unfold store. destruct (ed_loc s); reflexivity. Qed.
Lemma store_history : forall b s, ed_history (store b s) = ed_history s.
Proof. intros b s. unfold store. destruct (ed_loc s); reflexivity. Qed.
Lemma store_showauto : forall b s, ed_showauto (store b s) = ed_showauto s.
Proof. intros b s. unfold store. destruct (ed_loc s); reflexivity. Qed.

Lemma refreshed_plain : forall s, is_search s = false -> refreshed s = s.
Proof. intros s H. unfold refreshed. rewrite H. reflexivity. Qed.

(** A redraw outside a search. *)
Lemma display_plain : forall E s s' u, is_search s = false -> display E s = ORet u s' ->
  exists g b tcl cb tty, current_autosuggestion s = Val g /\ cur_buf s = Val b /\
    s' = shown s g (clamp_cursor (ed_noeol s) (num_chars b) (ed_cursor s)) tcl cb tty.
Proof.
  intros E s s' u Hs H. pose proof (display_out E s) as D. rewrite H in D.
  rewrite (refreshed_plain s Hs) in D. exact D.
Qed.

(** * C27: Enter *)

Lemma nth_error_split_at : forall (t : text) n x, nth_error t n = Some x ->
  exists a r, t = a ++ x :: r /\ length a = n.
Proof. intros t n x H. exact (nth_error_split t n H). Qed.

Lemma char_before_bs : forall b c,
  (exists x, char_before b c = Some x /\ N.eqb x c_bs = true) <-> after_backslash (data b) c.
Proof.
  intros b c. unfold char_before, after_backslash. split.
  - intros [x [H1 H2]]. apply N.eqb_eq in H2. subst x. destruct c as [|c]; [discriminate|].
    destruct (nth_error_split_at _ _ _ H1) as [a [r [H3 H4]]].
    exists a, r. split; [exact H3|lia].
  - intros [a [r [H1 H2]]]. exists c_bs. split; [|apply N.eqb_refl].
    subst c. rewrite H1, nth_error_app2, Nat.sub_diag by lia. reflexivity.
Qed.

Definition finish_line (E : env) (b : buffer) : ME bool :=
  modify (set_cursor (num_chars b)) ;;; display_impl E false ;;;
  tty_write E [TCRLF] ;;; modify (set_hint None) ;;; ret true.

Lemma finish_ret : forall E b s d s', finish_line E b s = ORet d s' -> cur_buf s = Val b ->
  d = true /\ cur_buf s' = Val b.
Proof.
  intros E b s d s' H Hb. unfold finish_line, bind, modify in H.
  pose proof (display_impl_out E false (set_cursor (num_chars b) s)) as D.
  destruct (display_impl E false (set_cursor (num_chars b) s)) as [u s1| | |]; try discriminate.
  destruct D as [b1 [tcl [cb [tty [D1 ->]]]]]. unfold tty_write in H. destruct (e_wok E); [|discriminate].
  injection H as <- <-. split; [reflexivity|]. exact Hb.
Qed.

Lemma clear_search_cur : forall s, cur_buf (clear_search s) = cur_buf s.
Proof. reflexivity. Qed.

Lemma insert_out : forall E t s b u s' a r, is_search s = false -> cur_buf s = Val b ->
  data b = a ++ r -> length a = ed_cursor s ->
  insert_chars_after_cursor E t s = ORet u s' ->
  exists b', cur_buf s' = Val b' /\ data b' = a ++ t ++ r /\
    ed_cursor s' = clamp_cursor (ed_noeol s) (length (data b')) (length a + length t) /\
    ed_loc s' = ed_loc s /\ is_search s' = false /\ ed_hint s' = ed_hint s /\
    ed_noeol s' = ed_noeol s.
Proof.
  intros E t s b u s' a r Hs Hb Hd Ha H. unfold insert_chars_after_cursor, bind, gets in H.
  rewrite (with_cur_mut_eq _ _ _ Hb) in H. unfold unit_op in H.
  rewrite <- Ha in H. rewrite (insert_app (opened s b) a r t) in H by (rewrite data_opened; exact Hd).
  cbn [rbind] in H. unfold modify in H. set (b' := mkBuf _ _ _) in H.
  assert (Hs' : is_search (set_cursor (ed_cursor (store b' s) + length t) (store b' s)) = false).
  { rewrite <- Hs. apply store_search. }
  destruct (display_plain _ _ _ _ Hs' H) as [g [b2 [tcl [cb [tty [_ [H2 ->]]]]]]].
  assert (b2 = b').
  { change (cur_buf (store b' s) = Val b2) in H2. rewrite cur_store in H2. congruence. }
  subst b2. exists b'. unfold shown. edsimp. rewrite store_noeol, store_cursor, Ha.
  repeat split.
  - change (cur_buf (store b' s) = Val b'). apply cur_store.
  - apply store_loc.
  - exact Hs'.
  - apply store_hint.
Qed.

Lemma newline_out : forall E s b d s', is_search s = false -> cur_buf s = Val b ->
  handle_newline E s = ORet d s' ->
  (d = true <-> ed_hint s = None /\ ~ after_backslash (data b) (ed_cursor s)) /\
  (d = true -> ed_result s' = Val (data b)) /\
  (d = false -> ed_hint s <> None -> line_is s' (data b) (ed_cursor s) /\ ed_hint s' = None) /\
  (d = false -> ed_hint s = None -> exists a r, data b = a ++ r /\ length a = ed_cursor s /\
     line_is s' (a ++ c_nl :: r)
       (clamp_cursor (ed_noeol s) (S (length (data b))) (S (ed_cursor s)))).
Proof.
  intros E s b d s' Hs Hb H. unfold handle_newline, bind at 1 2 3 4 5, modify, get in H.
  change (is_search (set_fresh false s)) with (is_search s) in H. rewrite Hs in H. cbn [when] in H.
  unfold ret at 1 in H. set (s1 := clear_search (set_fresh false s)) in *.
  assert (H1 : cur_buf s1 = Val b) by exact Hb.
  assert (Hh : ed_hint s1 = ed_hint s) by reflexivity. rewrite Hh in H.
  destruct (ed_hint s) as [hh|] eqn:Eh.
  - cbv beta iota in H. injection H as <- <-. split; [|split; [discriminate|split]].
    + split; [discriminate|]. intros [K _]. discriminate.
    + intros _ _. split; [|reflexivity]. exists b. auto.
    + discriminate.
  - unfold bind, get_cur in H. rewrite H1 in H.
    change (ed_cursor s1) with (ed_cursor s) in H.
    destruct (char_before b (ed_cursor s)) as [x|] eqn:Ex.
    + destruct (N.eqb x c_bs) eqn:Ebs.
      * assert (Hab : after_backslash (data b) (ed_cursor s)).
        { apply char_before_bs. exists x. split; assumption. }
        unfold insert_after_cursor in H.
        destruct (insert_chars_after_cursor E [c_nl] s1) as [u s2| | |] eqn:Ei; try discriminate.
        injection H as <- <-. split; [|split; [discriminate|split]].
        -- split; [discriminate|]. intros [_ K]. contradiction.
        -- intros _ K. congruence.
        -- intros _ _. pose proof Hab as [a0 [r0 [Hd Hc]]].
           exists (a0 ++ [c_bs]), r0.
           assert (Hd2 : data b = (a0 ++ [c_bs]) ++ r0) by (rewrite <- app_assoc; exact Hd).
           assert (Hc2 : length (a0 ++ [c_bs]) = ed_cursor s) by (rewrite app_length; cbn; lia).
           split; [exact Hd2|]. split; [exact Hc2|].
           destruct (insert_out E [c_nl] s1 b u s2 _ _ eq_refl H1 Hd2 Hc2 Ei)
             as [b' [K1 [K2 [K3 _]]]].
           exists b'. split; [exact K1|]. split; [exact K2|]. rewrite K3, K2.
           change (ed_noeol s1) with (ed_noeol s). f_equal.
           ++ rewrite Hd2, !app_length. cbn. lia.
           ++ cbn [length]. lia.
      * assert (Hab : ~ after_backslash (data b) (ed_cursor s)).
        { intro K. apply char_before_bs in K. destruct K as [y [K1 K2]]. congruence. }
        change (finish_line E b s1 = ORet d s') in H.
        destruct (finish_ret _ _ _ _ _ H H1) as [-> K].
        split; [tauto|]. split; [|split; discriminate].
        intros _. unfold ed_result. rewrite K. reflexivity.
    + assert (Hab : ~ after_backslash (data b) (ed_cursor s)).
      { intro K. apply char_before_bs in K. destruct K as [y [K1 K2]]. congruence. }
      change (finish_line E b s1 = ORet d s') in H.
      destruct (finish_ret _ _ _ _ _ H H1) as [-> K].
      split; [tauto|]. split; [|split; discriminate].
      intros _. unfold ed_result. rewrite K. reflexivity.
Qed.

Lemma enter_key : forall {K} (core : env -> key -> MK K unit) E x s b d x' s',
  cur_buf s = Val b ->
  handle_key core E (KChar c_nl) (x, s) = ORet d (x', s') ->
  x' = x /\ handle_newline E s = ORet d s'.
Proof.
  intros K core E x s b d x' s' Hb H. unfold handle_key, bind at 1 2 in H. cbn [gete] in H.
  rewrite Hb in H. cbv beta iota zeta in H. change (N.eqb c_nl c_tab) with false in H.
  change (N.eqb c_nl c_nl) with true in H. cbv iota in H. unfold bind, lift in H.
  destruct (handle_newline E s) as [d0 s0| | |]; try discriminate.
  destruct (e_wok E); [|discriminate]. injection H as <- <- <-. split; reflexivity.
Qed.
