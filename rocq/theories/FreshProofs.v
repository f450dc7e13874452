(** The screen is up to date after every key (C82). *)
From Verif Require Import Base Utf8 BufferModel UtilModel HistoryModel EditorState EditorModel
  KeymapModel ViModel MonadLemmas EditorLemmas Lemmas BufferProofs CursorProofs ScreenSpec ScreenProofs GridSpec GridProofs FreshSpec.
Local Open Scope monad_scope.

(** * States that look the same *)

Lemma alike_refl : forall s, alike s s.
Proof. intro s. repeat split. intros b H. exists b. split; [exact H|reflexivity]. Qed.
Lemma alike_trans : forall a b c, alike a b -> alike b c -> alike a c.
Proof.
  intros a b c [A1 [A2 [A3 [A4 [A5 A6]]]]] [B1 [B2 [B3 [B4 [B5 B6]]]]].
  split; [congruence|]. split; [congruence|]. split; [congruence|]. split; [congruence|]. split.
  - intro H. destruct (A5 H) as [K1 K2]. rewrite <- A4 in H. destruct (B5 H) as [K3 K4]. split; congruence.
  - intros x Hx. destruct (A6 x Hx) as [y [Hy Ey]]. destruct (B6 y Hy) as [z [Hz Ez]]. exists z. split; [exact Hz|congruence].
Qed.

Lemma alike_prompt : forall U s s' x, alike s s' -> (exists b, cur_buf s = Val b) ->
  search_prompt U s = Val x -> search_prompt U s' = Val x.
Proof.
  intros U s s' x [A1 [A2 [A3 [A4 [A5 A6]]]]] [b Hb] H. unfold search_prompt in *. rewrite A4, A1.
  destruct (is_search s); [|exact H]. destruct (A5 eq_refl) as [-> ->]. destruct (A6 b Hb) as [b' [Hb' Ed]].
  rewrite Hb in H. rewrite Hb'. cbn [rbind] in *. rewrite Ed. exact H.
Qed.
Lemma alike_on_screen : forall s s' t, alike s s' -> on_screen s t -> on_screen s' t.
Proof.
  intros s s' t [A1 [A2 [A3 [A4 [A5 A6]]]]] H. unfold on_screen in *. rewrite A3.
  destruct (ed_sugg s); [exact H|]. destruct H as [b [Hb ->]]. destruct (A6 b Hb) as [b' [Hb' Ed]].
  exists b'. split; [exact Hb'|congruence].
Qed.

Section Fresh.
  Context (s0 : ed).

  (** Nothing but redraws was written. *)
  Definition Wk (s : ed) : Prop := exists l, drawn s0 l s.
  (** And the last one showed the state as it is now. *)
  Definition Up (s : ed) : Prop := exists d l, drawn s0 (d :: l) s /\ alike (rd_to d) s.

  Lemma Up_Wk : forall s, Up s -> Wk s.
  Proof. intros s [d [l [H _]]]. exists (d :: l). exact H. Qed.
  Lemma drawn_same : forall l s s', drawn s0 l s -> ed_tty s' = ed_tty s -> ed_tcl s' = ed_tcl s -> drawn s0 l s'.
  Proof.
    intros l s s' H H1 H2. destruct H.
    - apply drawn_start; congruence.
    - eapply drawn_more; [exact H|exact H0|exact H3|exact H4|congruence|congruence].
  Qed.
  Lemma Wk_same : forall s s', Wk s -> ed_tty s' = ed_tty s -> ed_tcl s' = ed_tcl s -> Wk s'.
  Proof. intros s s' [l H] H1 H2. exists l. exact (drawn_same _ _ _ H H1 H2). Qed.
  Lemma Up_same : forall s s', Up s -> ed_tty s' = ed_tty s -> ed_tcl s' = ed_tcl s -> alike s s' -> Up s'.
  Proof.
    intros s s' [d [l [H A]]] H1 H2 H3. exists d, l. split; [exact (drawn_same _ _ _ H H1 H2)|]. exact (alike_trans _ _ _ A H3).
  Qed.

  Definition news {A} (m : ME A) : Prop := forall s, Wk s -> wp m s (fun _ s' => Up s') anyE anyP.
  Definition mute {A} (m : ME A) : Prop := forall s, Wk s -> wp m s (fun _ s' => Wk s') anyE anyP.
  Definition stays {A} (m : ME A) : Prop := forall s, Up s -> wp m s (fun _ s' => Up s') anyE anyP.

  Lemma news_stays : forall {A} (m : ME A), news m -> stays m.
  Proof. intros A m H s Hs. apply H, Up_Wk, Hs. Qed.
  Lemma news_mute : forall {A} (m : ME A), news m -> mute m.
  Proof. intros A m H s Hs. eapply wp_mono; [apply H; exact Hs| | |]; auto. intros a s' K. exact (Up_Wk _ K). Qed.

  Lemma news_display_from : forall E (c : bool) s s1, Wk s -> ed_tty s1 = ed_tty s -> ed_tcl s1 = (if c then 1 else ed_tcl s) ->
    wp (display E) s1 (fun _ s' => Up s') anyE anyP.
  Proof.
    intros E c s s1 [l H] H1 H2. unfold wp. destruct (display E s1) as [[] s2| | |] eqn:Ed; try exact I.
    exists (mkRedraw E c s1 s2), l. split; [|apply alike_refl]. eapply drawn_more; [exact H|exact H1|exact H2|exact Ed|reflexivity|reflexivity].
  Qed.
  Lemma news_display : forall E, news (display E).
  Proof. intros E s Hs. apply (news_display_from E false s); [exact Hs|reflexivity|reflexivity]. Qed.

  Lemma news_bind : forall {A B} (m : ME A) (k : A -> ME B), mute m -> (forall a, news (k a)) -> news (bind m k).
  Proof.
    intros A B m k Hm Hk s Hs. apply wp_bind. eapply wp_mono; [apply Hm; exact Hs| | |]; auto.
  Qed.
  Lemma stays_bind : forall {A B} (m : ME A) (k : A -> ME B), stays m -> (forall a, stays (k a)) -> stays (bind m k).
  Proof.
    intros A B m k Hm Hk s Hs. apply wp_bind. eapply wp_mono; [apply Hm; exact Hs| | |]; auto.
  Qed.
  Lemma news_then : forall {A B} (m : ME A) (k : A -> ME B), news m -> (forall a, stays (k a)) -> news (bind m k).
  Proof.
    intros A B m k Hm Hk s Hs. apply wp_bind. eapply wp_mono; [apply Hm; exact Hs| | |]; auto.
  Qed.
  Lemma mute_bind : forall {A B} (m : ME A) (k : A -> ME B), mute m -> (forall a, mute (k a)) -> mute (bind m k).
  Proof.
    intros A B m k Hm Hk s Hs. apply wp_bind. eapply wp_mono; [apply Hm; exact Hs| | |]; auto.
  Qed.

  Lemma mute_ret : forall {A} (a : A), mute (ret a).
  Proof. intros A a s H. exact H. Qed.
  Lemma mute_get : mute get.
  Proof. intros s H. exact H. Qed.
  Lemma mute_gets : forall {A} (f : ed -> A), mute (gets f).
  Proof. intros A f s H. exact H. Qed.
  Lemma mute_liftr : forall {A} (r : res A), mute (liftr r).
  Proof. intros A r s H. apply wp_liftr; intros; [exact H|exact I]. Qed.
  Lemma mute_modify : forall f, (forall s, ed_tty (f s) = ed_tty s /\ ed_tcl (f s) = ed_tcl s) -> mute (modify f).
  Proof. intros f H s Hs. destruct (H s) as [H1 H2]. exact (Wk_same _ _ Hs H1 H2). Qed.
  Lemma mute_when : forall b m, mute m -> mute (when b m).
  Proof. intros b m H. destruct b; [exact H|apply mute_ret]. Qed.
  Lemma mute_get_cur : mute get_cur.
  Proof. intros s H. unfold wp, get_cur. destruct (cur_buf s); [exact H|exact I]. Qed.
  Lemma mute_with_cur_mut : forall {A} (f : buffer -> res (A * buffer)), mute (with_cur_mut f).
  Proof.
    intros A f. apply mute_bind.
    - intros s Hs. unfold wp, cur_prep. edsimp. destruct (ed_loc s); [|apply (Wk_same s); [exact Hs|reflexivity|reflexivity]].
      destruct (ed_hvalid s); [apply (Wk_same s); [exact Hs|reflexivity|reflexivity]|]. destruct (hist_get _ _); [|exact I].
      destruct (copy_buffer _ _); [apply (Wk_same s); [exact Hs|reflexivity|reflexivity]|exact I].
    - intros u s Hs. unfold wp, cur_upd. destruct (ed_loc s);
        [destruct (f (ed_hist s)) as [[a b]|]|destruct (f (ed_new s)) as [[a b]|]]; try exact I;
        (apply (Wk_same s); [exact Hs|reflexivity|reflexivity]).
  Qed.

  Lemma st_ret : forall {A} (a : A), stays (ret a).
  Proof. intros A a s H. exact H. Qed.
  Lemma st_pan : forall {A} p, stays (@pan ed A p).
  Proof. intros A p s H. exact I. Qed.
  Lemma st_fail : forall {A} p, stays (@fail ed A p).
  Proof. intros A p s H. exact I. Qed.
  Lemma st_get : stays get.
  Proof. intros s H. exact H. Qed.
  Lemma st_gets : forall {A} (f : ed -> A), stays (gets f).
  Proof. intros A f s H. exact H. Qed.
  Lemma st_liftr : forall {A} (r : res A), stays (liftr r).
  Proof. intros A r s H. apply wp_liftr; intros; [exact H|exact I]. Qed.
  Lemma st_get_cur : stays get_cur.
  Proof. intros s H. unfold wp, get_cur. destruct (cur_buf s); [exact H|exact I]. Qed.
  Lemma st_when : forall b m, stays m -> stays (when b m).
  Proof. intros b m H. destruct b; [exact H|apply st_ret]. Qed.
  Lemma Up_mod : forall (f : ed -> ed) s, Up s -> ed_tty (f s) = ed_tty s -> ed_tcl (f s) = ed_tcl s ->
    cur_buf (f s) = cur_buf s -> ed_prompt (f s) = ed_prompt s -> ed_cursor (f s) = ed_cursor s -> ed_sugg (f s) = ed_sugg s ->
    is_search (f s) = is_search s -> (is_search s = true -> ed_subset (f s) = ed_subset s /\ ed_subloc (f s) = ed_subloc s) -> Up (f s).
  Proof.
    intros f s Hs H1 H2 H3 H4 H5 H6 H7 H8. apply (Up_same s); [exact Hs|exact H1|exact H2|].
    repeat (split; [assumption|]). intros b Hb. exists b. rewrite H3. split; [exact Hb|reflexivity].
  Qed.
  Lemma st_modify : forall f, (forall s, (ed_tty (f s) = ed_tty s /\ ed_tcl (f s) = ed_tcl s) /\
    cur_buf (f s) = cur_buf s /\ ed_prompt (f s) = ed_prompt s /\ ed_cursor (f s) = ed_cursor s /\ ed_sugg (f s) = ed_sugg s /\
    is_search (f s) = is_search s /\ ed_subset (f s) = ed_subset s /\ ed_subloc (f s) = ed_subloc s) -> stays (modify f).
  Proof.
    intros f H s Hs. destruct (H s) as [[H1 H2] [H3 [H4 [H5 [H6 [H7 [H8 H9]]]]]]]. apply (Up_mod f); auto.
  Qed.
  Lemma st_text : forall {A} (f : buffer -> res (A * buffer)),
    (forall b a b', f b = Val (a, b') -> data b' = data b) -> stays (with_cur_mut f).
  Proof.
    intros A f Hf s Hs. unfold with_cur_mut. apply wp_bind. unfold wp, cur_prep. edsimp.
    destruct (ed_loc s) as [i|] eqn:El.
    - destruct (ed_hvalid s) eqn:Ev.
      + unfold cur_upd. edsimp. rewrite El.
        destruct (f (ed_hist s)) as [[a b']|] eqn:Ef; [|exact I]. apply (Up_same s); [exact Hs|reflexivity|reflexivity|].
        repeat split. intros b Hb. unfold cur_buf in *. rewrite El, Ev in Hb. injection Hb as <-.
        exists b'. edsimp. rewrite El, Ev. split; [reflexivity|]. exact (Hf _ _ _ Ef).
      + destruct (hist_get (ed_history s) i) as [bh|] eqn:Eh; [|exact I].
        destruct (copy_buffer (ed_hist s) bh) as [hb|] eqn:Ec; [|exact I].
        unfold cur_upd. edsimp. rewrite El.
        destruct (f hb) as [[a b']|] eqn:Ef; [|exact I]. apply (Up_same s); [exact Hs|reflexivity|reflexivity|].
        repeat split. intros b Hb. unfold cur_buf in *. rewrite El, Ev, Eh in Hb. injection Hb as <-.
        exists b'. edsimp. rewrite El. split; [reflexivity|]. rewrite (Hf _ _ _ Ef). exact (copy_data _ _ _ Ec).
    - unfold cur_upd. edsimp. rewrite El.
      destruct (f (ed_new s)) as [[a b']|] eqn:Ef; [|exact I]. apply (Up_same s); [exact Hs|reflexivity|reflexivity|].
      repeat split. intros b Hb. unfold cur_buf in *. rewrite El in Hb. injection Hb as <-.
      exists b'. edsimp. rewrite El. split; [reflexivity|]. exact (Hf _ _ _ Ef).
  Qed.

  Lemma freshen_out : forall s, ed_tty (freshen_history s) = ed_tty s /\ ed_tcl (freshen_history s) = ed_tcl s.
  Proof. intro s. unfold freshen_history. destruct (_ && _); split; reflexivity. Qed.

  Create HintDb fr.
  #[local] Hint Resolve news_display mute_ret mute_get mute_gets mute_liftr mute_get_cur mute_with_cur_mut
    st_ret st_pan st_fail st_get st_gets st_liftr st_get_cur : fr.

  Ltac mutem := let s := fresh "s" in intro s; cbv beta;
    first [ solve [split; reflexivity] | solve [unfold clear_search, skip_completions_hint; split; reflexivity]
          | solve [apply freshen_out] | solve [destruct (freshen_out (set_hvalid false s)) as [? ?]; split; assumption] | idtac ].
  Ltac mute1 :=
    cbv beta zeta;
    match goal with
    | |- mute (bind _ _) => apply mute_bind; [|intro]
    | |- mute (modify _) => apply mute_modify; mutem
    | |- mute (when _ _) => apply mute_when
    | |- mute (match ?x with _ => _ end) => destruct x
    | |- mute _ => solve [auto with fr | apply news_mute; auto with fr]
    end.
  Ltac fr1 :=
    cbv beta zeta;
    match goal with
    | |- news (match ?x with _ => _ end) => destruct x
    | |- news _ => solve [auto with fr]
    | |- news (bind _ _) => apply news_bind; [solve [repeat mute1]|intro]
    | |- stays (match ?x with _ => _ end) => destruct x
    | |- stays _ => solve [auto with fr | apply news_stays; auto with fr]
    | |- stays (modify _) => apply st_modify; solve [let s := fresh "s" in intro s; unfold skip_completions_hint; repeat split]
    | |- stays (when _ _) => apply st_when
    | |- stays (bind _ _) => first [ apply news_stays, news_bind; [solve [repeat mute1]|intro; solve [repeat fr1]]
                                   | apply stays_bind; [|intro] ]
    end.
  Ltac fr := repeat fr1.

  Lemma nw_move_end : forall E, news (move_cursor_to_end_of_line E).
  Proof. intro E. unfold move_cursor_to_end_of_line. fr. Qed.
  Lemma nw_move_start : forall E, news (move_cursor_to_start_of_line E).
  Proof. intro E. unfold move_cursor_to_start_of_line. fr. Qed.
  Lemma nw_move_to : forall E n, news (move_cursor_to E n).
  Proof. intros E n. unfold move_cursor_to. fr. Qed.
  Lemma nw_move_left : forall E n, news (move_cursor_left E n).
  Proof. intros E n. unfold move_cursor_left. fr. Qed.
  Lemma nw_move_right : forall E n, news (move_cursor_right E n).
  Proof. intros E n. unfold move_cursor_right. fr. Qed.
  Lemma nw_insert : forall E t, news (insert_chars_after_cursor E t).
  Proof. intros E t. unfold insert_chars_after_cursor. fr. Qed.
  Lemma nw_insert1 : forall E c, news (insert_after_cursor E c).
  Proof. intros E c. apply nw_insert. Qed.
  Lemma nw_insert_str : forall E c, news (insert_str_after_cursor E c).
  Proof. intros E c. apply nw_insert. Qed.
  Lemma nw_del_before : forall E, news (delete_before_cursor E).
  Proof. intros E. unfold delete_before_cursor. fr. Qed.
  Lemma nw_del_after : forall E, news (delete_after_cursor E).
  Proof. intros E. unfold delete_after_cursor. fr. Qed.
  Lemma nw_del_all_before : forall E, news (delete_all_before_cursor E).
  Proof. intros E. unfold delete_all_before_cursor. fr. Qed.
  Lemma nw_del_all_after : forall E, news (delete_all_after_cursor E).
  Proof. intros E. unfold delete_all_after_cursor. fr. Qed.
  Lemma nw_del_until : forall E n, news (delete_until E n).
  Proof. intros E n. unfold delete_until. fr. Qed.
  Lemma nw_del_until_inc : forall E n, news (delete_until_inclusive E n).
  Proof. intros E n. unfold delete_until_inclusive. fr. Qed.
  Lemma nw_del_word : forall E b, news (delete_word_before_cursor E b).
  Proof. intros E b. unfold delete_word_before_cursor. fr. Qed.
  Lemma nw_clear : forall E, news (clear E).
  Proof.
    intros E s Hs. unfold clear. apply wp_bind. apply wp_modify.
    apply (news_display_from E true s); [exact Hs|reflexivity|reflexivity].
  Qed.
  #[local] Hint Resolve nw_move_end nw_move_start nw_move_to nw_move_left nw_move_right
    nw_insert nw_insert1 nw_insert_str nw_del_before nw_del_after nw_del_all_before
    nw_del_all_after nw_del_until nw_del_until_inc nw_del_word nw_clear : fr.

  Lemma nw_undo_like : forall E f, news (undo_like E f).
  Proof.
    intros E f. unfold undo_like. apply news_bind; [solve [repeat mute1]|]. intro did.
    apply news_then; [fr|]. intro. apply st_ret.
  Qed.
  #[local] Hint Resolve nw_undo_like : fr.
  Lemma nw_undo : forall E, news (ed_undo E).
  Proof. intro E. unfold ed_undo. fr. Qed.
  Lemma nw_redo : forall E, news (ed_redo E).
  Proof. intro E. unfold ed_redo. fr. Qed.
  Lemma nw_revert : forall E, news (ed_revert E).
  Proof. intro E. unfold ed_revert. fr. Qed.
  Lemma nw_search : forall E b, news (search E b).
  Proof.
    intros E b. unfold search. apply news_bind; [|intro; fr].
    apply mute_modify. intro s. destruct (negb (is_search s)).
    - unfold refresh_search. edsimp. apply freshen_out.
    - unfold search_step. destruct (ed_subset s); [split; reflexivity|]. destruct (ed_subloc s); split; reflexivity.
  Qed.
  #[local] Hint Resolve nw_undo nw_redo nw_revert nw_search : fr.
  Lemma nw_move_up : forall E, news (move_up E).
  Proof. intros E. unfold move_up. fr. Qed.
  Lemma nw_move_down : forall E, news (move_down E).
  Proof. intros E. unfold move_down. fr. Qed.
  Lemma nw_hist_start : forall E, news (move_to_start_of_history E).
  Proof. intros E. unfold move_to_start_of_history. fr. Qed.
  Lemma nw_hist_end : forall E, news (move_to_end_of_history E).
  Proof. intros E. unfold move_to_end_of_history. fr. Qed.
  Lemma nw_accept : forall E, news (accept_autosuggestion E).
  Proof. intros E. unfold accept_autosuggestion. fr. Qed.
  #[local] Hint Resolve nw_move_up nw_move_down nw_hist_start nw_hist_end nw_accept : fr.

  Lemma st_complete : forall E, stays (complete E).
  Proof.
    intros E. unfold complete. apply stays_bind; [fr|]. intro s.
    destruct (ed_hint s) as [[comps ii]|].
    - fr.
    - apply stays_bind; [fr|]. intro wr. apply stays_bind.
      + apply st_text. intros b a b' H. destruct wr as [[st en]|].
        * destruct (buf_range b st en); [|discriminate]. injection H as _ <-. reflexivity.
        * injection H as _ <-. reflexivity.
      + intro word. cbv zeta. destruct (dedup_adj (sort_texts (e_complete E word))) as [|c [|c2 l]]; [fr|fr|].
        destruct (find_longest_common_prefix (c :: c2 :: l)) as [p|]; [|fr].
        destruct ((blen word <? blen p) && prefixb word p); fr.
  Qed.
  #[local] Hint Resolve st_complete : fr.

  Lemma accept_no_search : forall E s, wp (accept_autosuggestion E) s (fun _ s' => is_search s' = false) anyE anyP.
  Proof.
    intros E s. unfold accept_autosuggestion. apply wp_bind, wp_get. apply wp_bind.
    eapply wp_mono with (Q := fun _ _ => True) (X := anyE) (P := anyP); auto.
    { apply wp_when; intro; [|exact I]. unfold wp. destruct (with_cur_mut _ s); try exact I; red; trivial. }
    intros _ s1 _. apply wp_bind, wp_modify. unfold move_cursor_to_end_of_line. apply wp_bind.
    unfold wp at 1, get_cur. destruct (cur_buf (clear_search s1)) as [b|]; [|exact I].
    apply wp_bind, wp_modify. apply wp_display; [|intros; exact I|intros; exact I].
    intros g b' tcl cb tty _ _. reflexivity.
  Qed.

  Lemma newline_up : forall E s, Up s -> wp (handle_newline E) s (fun d s' => d = false -> Up s') anyE anyP.
  Proof.
    intros E s Hs. unfold handle_newline. apply wp_bind, wp_modify. apply wp_bind, wp_get.
    set (s1 := set_fresh false s).
    assert (H1 : Up s1) by (apply (Up_mod (set_fresh false)); auto).
    apply wp_bind. eapply wp_mono with (Q := fun _ s' => Up s' /\ is_search s' = false) (X := anyE) (P := anyP); auto.
    { apply wp_when; intro Hq; [|split; [exact H1|exact Hq]].
      eapply wp_mono; [apply wp_and; [apply nw_accept; apply Up_Wk; exact H1|apply accept_no_search]| | |]; auto; intros; exact I. }
    intros _ s2 [H2 Hq]. apply wp_bind, wp_modify.
    assert (H3 : Up (clear_search s2)).
    { apply (Up_mod clear_search); auto. rewrite Hq. discriminate. }
    apply wp_bind, wp_get. generalize dependent (clear_search s2). intros s3 H3.
    destruct (ed_hint s3).
    - apply wp_bind, wp_modify. apply wp_ret. intros _. apply (Up_mod (set_hint None)); auto.
    - apply wp_bind. unfold wp at 1, get_cur. destruct (cur_buf s3) as [b|]; [|exact I].
      assert (Hfin : wp (modify (set_cursor (num_chars b)) ;;; display_impl E false ;;;
                 tty_write E [TCRLF] ;;; modify (set_hint None) ;;; ret true) s3 (fun d s' => d = false -> Up s') anyE anyP).
      { apply wp_bind, wp_modify. apply wp_bind.
        eapply wp_mono with (Q := fun _ _ => True) (X := anyE) (P := anyP); auto.
        { unfold wp. destruct (display_impl E false _); try exact I; red; trivial. }
        intros _ s4 _. apply wp_bind. unfold wp at 1, tty_write. destruct (e_wok E); [|exact I].
        apply wp_bind, wp_modify. apply wp_ret. discriminate. }
      destruct (char_before b (ed_cursor s3)) as [c|]; [|exact Hfin].
      destruct (N.eqb c c_bs); [|exact Hfin].
      apply wp_bind. eapply wp_mono; [apply nw_insert1; apply Up_Wk; exact H3| | |]; auto.
      intros u s4 H4. apply wp_ret. auto.
  Qed.

  (** * Key maps *)

  Definition kup {K A} (m : MK K A) : Prop := forall x : K * ed, Up (snd x) -> wp m x (fun _ y => Up (snd y)) anyE anyP.

  Lemma kup_bind : forall {K A B} (m : MK K A) (k : A -> MK K B), kup m -> (forall a, kup (k a)) -> kup (bind m k).
  Proof. intros K A B m k Hm Hk x Hx. apply wp_bind. eapply wp_mono; [apply Hm; exact Hx| | |]; auto. Qed.
  Lemma kup_ret : forall {K A} (a : A), kup (@ret (K * ed) A a).
  Proof. intros K A a x Hx. exact Hx. Qed.
  Lemma kup_fail : forall {K A} e, kup (@fail (K * ed) A e).
  Proof. intros K A e x Hx. exact I. Qed.
  Lemma kup_pan : forall {K A} p, kup (@pan (K * ed) A p).
  Proof. intros K A e x Hx. exact I. Qed.
  Lemma kup_liftr : forall {K A} (r : res A), kup (@liftr (K * ed) A r).
  Proof. intros K A r x Hx. apply wp_liftr; intros; [exact Hx|exact I]. Qed.
  Lemma kup_getk : forall {K}, kup (@getk K).
  Proof. intros K [k s] Hx. exact Hx. Qed.
  Lemma kup_gete : forall {K}, kup (@gete K).
  Proof. intros K [k s] Hx. exact Hx. Qed.
  Lemma kup_modk : forall {K} (f : K -> K), kup (modk f).
  Proof. intros K f [k s] Hx. exact Hx. Qed.
  Lemma kup_when : forall {K} b (m : MK K unit), kup m -> kup (when b m).
  Proof. intros K b m H. destruct b; [exact H|apply kup_ret]. Qed.
  Lemma kup_mfor : forall {K A} (body : A -> MK K unit) l, (forall x, kup (body x)) -> kup (mfor l body).
  Proof.
    intros K A body l H. induction l as [|y l IH]; cbn [mfor]; [apply kup_ret|].
    apply kup_bind; [apply H|intro; exact IH].
  Qed.
  Lemma kup_Nloop : forall {K} (body : MK K bool) n, kup body -> kup (Nloop n body).
  Proof. intros K body n H x Hx. apply (wp_Nloop body (fun y => Up (snd y))); [exact H|exact Hx]. Qed.
  Lemma kup_lift : forall {K A} (m : ME A), stays m -> kup (@lift K A m).
  Proof. intros K A m Hm [k s] Hx. apply wp_lift. eapply wp_mono; [apply Hm; exact Hx| | |]; auto. Qed.
  Lemma kup_lift_n : forall {K A} (m : ME A), news m -> kup (@lift K A m).
  Proof. intros K A m Hm. apply kup_lift, news_stays, Hm. Qed.
  Lemma kup_skip : forall {K}, kup (@mod_ed K skip_completions_hint).
  Proof. intros K [k s] Hx. apply (Up_mod skip_completions_hint); auto. Qed.

  Lemma up_handle_key : forall {K} (core : env -> key -> MK K unit) E k,
    (forall k, kup (core E k)) -> forall x, Up (snd x) ->
    wp (handle_key core E k) x (fun d y => d = false -> Up (snd y)) anyE anyP.
  Proof.
    intros K core E k Hc.
    set (Kd := fun (m : MK K bool) => forall x, Up (snd x) -> wp m x (fun d y => d = false -> Up (snd y)) anyE anyP).
    assert (Hk : forall m, kup m -> Kd m).
    { intros m Hm x Hx. eapply wp_mono; [apply Hm; exact Hx| | |]; auto. }
    assert (Hb : forall A (m : MK K A) k, kup m -> (forall a, Kd (k a)) -> Kd (bind m k)).
    { intros A m k0 Hm Hk0 x Hx. apply wp_bind. eapply wp_mono; [apply Hm; exact Hx| | |]; auto. }
    assert (Hoth : forall k, Kd (core E k ;;; mod_ed skip_completions_hint ;;; ret false)).
    { intro k0. apply Hk. apply kup_bind; [apply Hc|]. intro. apply kup_bind; [apply kup_skip|intro; apply kup_ret]. }
    assert (Hf : forall e, Kd (lift (handle_newline E) ;;; fail e)).
    { intros e [kk s] Hx. apply wp_bind. apply wp_lift. eapply wp_mono; [apply newline_up; exact Hx| | |]; auto. intros; exact I. }
    assert (Hl : forall (m : ME unit), news m -> Kd (lift m ;;; ret false)).
    { intros m Hm. apply Hk. apply kup_bind; [apply kup_lift_n, Hm|intro; apply kup_ret]. }
    enough (H : Kd (handle_key core E k)) by exact H.
    unfold handle_key. apply Hb; [apply kup_gete|]. intro s.
    apply Hb.
    { intros x Hx. unfold wp. destruct (cur_buf s); [exact Hx|exact I]. }
    intro emp. cbv zeta.
    match goal with |- Kd (bind ?m ?k) => assert (Hm : Kd m) end.
    { destruct (match k with KCtrl c => if is_char c "h" then KBackspace else k | _ => k end) as [c|c|c| | | | | | | | | | |n]; try apply Hoth.
      - destruct (N.eqb c c_tab).
        { apply Hk. apply kup_bind; [apply kup_lift, st_complete|intro; apply kup_ret]. }
        destruct (N.eqb c c_nl); [|apply Hoth].
        intros [kk s1] Hx. apply wp_lift. apply newline_up. exact Hx.
      - destruct (is_char c "c"); [apply Hf|]. destruct (is_char c "d" && emp); [apply Hf|].
        destruct (is_char c "f" && showing_autosuggestion s); [apply Hl, nw_accept|].
        destruct (is_char c "r"); [apply Hl, nw_search|]. destruct (is_char c "s"); [apply Hl, nw_search|]. apply Hoth.
      - destruct (showing_autosuggestion s); [|apply Hoth]. apply Hb.
        { intros x Hx. unfold wp. destruct (cursor_is_at_end_of_line s); [exact Hx|exact I]. }
        intros [|]; [apply Hl, nw_accept|apply Hoth]. }
    intros x Hx. apply wp_bind. eapply wp_mono; [apply Hm; exact Hx| | |]; auto.
    intros d y Hy. destruct (e_wok E); [exact Hy|exact I].
  Qed.

  Lemma up_run_keys : forall {K} (core : env -> key -> MK K unit) keys,
    (forall E k, kup (core E k)) -> forall x, Up (snd x) ->
    wp (run_keys core keys) x (fun d y => d = false -> Up (snd y)) anyE anyP.
  Proof.
    intros K core keys Hc. induction keys as [|[E k] keys IH]; intros x Hx; cbn [run_keys]; [apply wp_ret; auto|].
    apply wp_bind. eapply wp_mono; [apply up_handle_key; [apply Hc|exact Hx]| | |]; auto.
    intros d y Hy. destruct d; [apply wp_ret; discriminate|]. apply IH. auto.
  Qed.

  (** * Emacs *)

  Lemma st_move_word : forall E b, stays (emacs_move_word E b).
  Proof. intros E b. unfold emacs_move_word. fr. Qed.
  #[local] Hint Resolve st_move_word : fr.
  Lemma st_emacs_ctrl : forall E c, stays (emacs_ctrl E c).
  Proof.
    intros E c. unfold emacs_ctrl.
    repeat match goal with
    | |- stays (if ?b then _ else _) => destruct b; [fr|]
    end. fr.
  Qed.
  Lemma kup_emacs_core : forall E k, kup (emacs_core E k).
  Proof.
    intros E k. unfold emacs_core.
    apply kup_bind.
    { destruct k; try apply kup_modk. destruct (is_char c "."); [apply kup_ret|apply kup_modk]. }
    intro. destruct k; try (apply kup_lift_n; auto with fr; fail); try (apply kup_ret).
    - unfold emacs_alt.
      repeat match goal with
      | |- kup (if ?b then _ else _) => destruct b
      | |- kup (ret _) => apply kup_ret
      | |- kup (lift _) => first [apply kup_lift_n; solve [auto with fr] | apply kup_lift; solve [auto with fr]]
      | |- kup (bind (lift _) _) => apply kup_bind; [apply kup_lift_n; solve [auto with fr]|intro]
      end.
      unfold handle_last_arg_fetch.
      repeat match goal with
      | |- kup (match ?b with _ => _ end) => destruct b
      | |- kup (ret _) => apply kup_ret
      | |- kup (liftr _) => apply kup_liftr
      | |- kup gete => apply kup_gete
      | |- kup getk => apply kup_getk
      | |- kup (modk _) => apply kup_modk
      | |- kup (lift _) => first [apply kup_lift_n; solve [auto with fr] | apply kup_lift; solve [auto with fr]]
      | |- kup (bind _ _) => apply kup_bind; [|intro]
      end.
    - apply kup_lift, st_emacs_ctrl.
  Qed.

  (** * Vi *)

  Lemma kup_noeol : forall b, kup (@mod_ed vi (set_noeol b)).
  Proof. intros b [k s] Hx. apply (Up_mod (set_noeol b)); auto. Qed.
  Lemma kup_editor_mode : forall E, kup (set_editor_mode E).
  Proof.
    intros E [v s] Hx. unfold set_editor_mode. apply wp_bind. unfold getk, wp at 1.
    assert (Hd : forall m, wp (mod_ed (set_vi_mode m) ;;; lift (display E)) (v, s) (fun _ y => Up (snd y)) anyE anyP).
    { intro m. apply wp_bind. unfold mod_ed, wp at 1. apply wp_lift. apply news_display.
      apply (Wk_same s); [apply Up_Wk; exact Hx| |]; unfold set_vi_mode; destruct (pr_vi (ed_prompt s)); reflexivity. }
    destruct (vmode_of v); try apply Hd; apply wp_ret; exact Hx.
  Qed.
  Lemma st_start_group : stays (with_cur_mut (pure_op start_undo_group)).
  Proof. apply st_text. intros b a b' H. injection H as _ <-. reflexivity. Qed.
  Lemma st_end_group : stays (with_cur_mut (pure_op end_undo_group)).
  Proof. apply st_text. intros b a b' H. injection H as _ <-. reflexivity. Qed.
  #[local] Hint Resolve st_start_group st_end_group : fr.
  Lemma kup_start_group : kup (buf_mut start_undo_group).
  Proof. apply kup_lift. apply st_start_group. Qed.
  Lemma kup_end_group : kup (buf_mut end_undo_group).
  Proof. apply kup_lift. apply st_end_group. Qed.
  Lemma nw_vi_word : forall E a b n, news (vi_move_word E a b n).
  Proof. intros. unfold vi_move_word. fr. Qed.
  Lemma nw_vi_word_end : forall E a b n, news (vi_move_word_end E a b n).
  Proof. intros. unfold vi_move_word_end. fr. Qed.
  #[local] Hint Resolve nw_vi_word nw_vi_word_end : fr.

  Create HintDb ku.
  #[local] Hint Resolve kup_noeol kup_editor_mode kup_start_group kup_end_group : ku.
  Ltac ku1 :=
    cbv beta zeta;
    match goal with
    | |- kup (match ?b with _ => _ end) => destruct b
    | |- kup (ret _) => apply kup_ret
    | |- kup (fail _) => apply kup_fail
    | |- kup (pan _) => apply kup_pan
    | |- kup (liftr _) => apply kup_liftr
    | |- kup gete => apply kup_gete
    | |- kup getk => apply kup_getk
    | |- kup (modk _) => apply kup_modk
    | |- kup (when _ _) => apply kup_when
    | |- kup (Nloop _ _) => apply kup_Nloop
    | |- kup (mfor _ _) => apply kup_mfor; intro
    | H : _ |- kup _ => solve [apply H]
    | |- kup (lift (match ?b with _ => _ end)) => destruct b
    | |- kup (lift _) => first [apply kup_lift_n; solve [auto with fr] | apply kup_lift; solve [auto with fr]]
    | |- kup _ => solve [auto with ku]
    | |- kup (bind _ _) => apply kup_bind; [|intro]
    end.
  Ltac ku := repeat ku1.

  Lemma ku_smpl : forall E m, kup (set_mode_preserve_last E m).
  Proof. intros E m. unfold set_mode_preserve_last. ku. Qed.
  #[local] Hint Resolve ku_smpl : ku.
  Lemma ku_set_mode : forall E m, kup (set_mode E m).
  Proof. intros E m. unfold set_mode. ku. Qed.
  Lemma ku_pop_mode : forall E, kup (pop_mode E).
  Proof.
    intros E. unfold pop_mode. apply kup_bind; [ku|]. intro v. destruct (vpop v) as [last v1]. ku.
    intros [k s] Hx. unfold wp, lift. pose proof (news_display E s (Up_Wk _ Hx)) as H. unfold wp in H.
    destruct (display E s); try exact I. exact H.
  Qed.
  Lemma ku_abort : forall E, kup (normal_mode_abort E).
  Proof. intros E. unfold normal_mode_abort. ku. Qed.
  Lemma ku_pop_am : forall E mt, kup (pop_mode_after_movement E mt).
  Proof.
    intros E mt. unfold pop_mode_after_movement. apply kup_bind; [ku|]. intro v. destruct (vpop v) as [original v1].
    destruct (match vmode_of v1 with MDelete _ => vpop v1 | _ => (original, v1) end) as [last v2]. ku.
  Qed.
  Lemma ku_mcr : kup mcr.
  Proof. unfold mcr. ku. Qed.
  #[local] Hint Resolve ku_set_mode ku_pop_mode ku_abort ku_pop_am ku_mcr : ku.
  Lemma ku_vi_common : forall E k, kup (vi_common E k).
  Proof.
    intros E k. unfold vi_common.
    destruct k; try (apply kup_lift_n; solve [auto with fr]); try (apply kup_lift; solve [auto with fr]). ku.
  Qed.
  Lemma ku_insert_reset : kup insert_reset.
  Proof. unfold insert_reset. ku. Qed.
  Lemma ku_push_last : forall k, kup (push_last k).
  Proof. intro k. unfold push_last. ku. Qed.
  Lemma ku_push_cur : forall k, kup (push_cur k).
  Proof. intro k. unfold push_cur. ku. Qed.
  #[local] Hint Resolve ku_vi_common ku_insert_reset ku_push_last ku_push_cur : ku.
  Lemma ku_tilde : forall E, kup (tilde_step E).
  Proof. intro E. unfold tilde_step. ku. Qed.
  Lemma ku_move_to_char : forall E k m, kup (vi_move_to_char E k m).
  Proof. intros. unfold vi_move_to_char. ku. Qed.
  #[local] Hint Resolve ku_tilde ku_move_to_char : ku.
  Lemma ku_repeat : forall rec, (forall k, kup (rec k)) -> kup (vi_repeat rec).
  Proof. intros rec H. unfold vi_repeat. ku. Qed.
  Lemma ku_vi_insert : forall rec E k, (forall k, kup (rec k)) -> kup (vi_insert rec E k).
  Proof. intros rec E k H. unfold vi_insert. ku. Qed.
  Lemma ku_vi_normal : forall rec E k, (forall k, kup (rec k)) -> kup (vi_normal rec E k).
  Proof. intros rec E k H. pose proof (ku_repeat rec H) as Hr. unfold vi_normal. ku. Qed.
  Lemma ku_vi_replace : forall E k, kup (vi_replace E k).
  Proof. intros E k. unfold vi_replace. ku. Qed.
  Lemma ku_vi_doc : forall rec E k, (forall k, kup (rec k)) -> kup (vi_delete_or_change rec E k).
  Proof. intros rec E k H. pose proof (ku_vi_normal rec E k H) as Hr. unfold vi_delete_or_change. ku. Qed.
  Lemma ku_finally : forall m f, kup m -> kup (finally m f).
  Proof.
    intros m f Hm x Hx. specialize (Hm x Hx). unfold wp, finally in *.
    destruct (m x) as [a [v s]|e [v s]| |]; try exact I. exact Hm.
  Qed.
  Lemma ku_vi_g : forall E k, kup (vi_g E k).
  Proof.
    intros E k. unfold vi_g.
    assert (Hf : kup (finally (pop_mode_after_movement E Inclusive) (vset_count 0))).
    { apply ku_finally, ku_pop_am. }
    ku.
  Qed.
  #[local] Hint Resolve ku_vi_replace ku_vi_g : ku.
  Lemma ku_vi_core_fuel : forall f E k, kup (vi_core_fuel f E k).
  Proof.
    induction f as [|f IH]; intros E k; [intros x _; exact I|]. cbn [vi_core_fuel].
    pose proof (ku_vi_normal _ E k (IH E)). pose proof (ku_vi_insert _ E k (IH E)).
    pose proof (ku_vi_doc _ E k (IH E)). ku.
  Qed.
  Lemma ku_vi_core : forall E k, kup (vi_core E k).
  Proof. intros E k. unfold vi_core. apply kup_bind; [apply kup_getk|]. intro v. apply ku_vi_core_fuel. Qed.
  Lemma ku_vi_init : forall E, kup (vi_init E).
  Proof. intro E. unfold vi_init. ku. Qed.
End Fresh.

(** * Sessions *)

Lemma new_up : forall E p f ib h w cb ttys s, editor_new E p f ib h w cb ttys = ORet tt s ->
  exists sb n, n + 1 = match e_ttywidth E with Some n => n | None => 80 end /\
    ed_tty sb = ttys ++ init_toks n (pr_prompt p) /\ ed_tcl sb = 1 /\ Up sb s.
Proof.
  intros E p f ib h w cb ttys s H. unfold editor_new in H. destruct (negb (e_wok E)); [discriminate|].
  unfold bind at 1, liftr in H. destruct (sub_chk _ 1) as [n|] eqn:En; [|discriminate].
  unfold bind at 1 in H. unfold tty_write in H. destruct (e_wok E); [|discriminate].
  match type of H with ?m ?sb = _ => exists sb, n; assert (Hw : wp m sb (fun _ s' => Up sb s') anyE anyP) end.
  { match goal with |- wp _ ?sb _ _ _ => assert (Hs : Wk sb sb) by (exists []; apply drawn_start; reflexivity) end.
    apply news_bind; [|intro; apply news_display|exact Hs]. apply mute_when. apply news_mute. apply nw_move_end. }
  split; [|split; [reflexivity|split; [reflexivity|exact (wp_ret_of _ _ _ _ _ _ _ Hw H)]]].
  unfold sub_chk in En. destruct (1 <=? _) eqn:E1 in En; [|discriminate]. apply Nat.leb_le in E1. injection En as <-. lia.
Qed.

Lemma emacs_up : forall E p f ib h w cb ttys s keys k s',
  editor_new E p f ib h w cb ttys = ORet tt s -> run_keys emacs_core keys (emacs_new, s) = ORet false (k, s') ->
  exists sb n d l, n + 1 = match e_ttywidth E with Some n => n | None => 80 end /\
    ed_tty sb = ttys ++ init_toks n (pr_prompt p) /\ ed_tcl sb = 1 /\ drawn sb (d :: l) s' /\ alike (rd_to d) s'.
Proof.
  intros E p f ib h w cb ttys s keys k s' H0 H1. destruct (new_up _ _ _ _ _ _ _ _ _ H0) as [sb [n [A1 [A2 [A3 A4]]]]].
  pose proof (up_run_keys sb emacs_core keys (kup_emacs_core sb) (emacs_new, s) A4) as Hw.
  destruct (wp_ret_of _ _ _ _ _ _ _ Hw H1 eq_refl) as [d [l [K1 K2]]]. exists sb, n, d, l. auto.
Qed.
Lemma vi_up : forall E E1 p f ib h w cb ttys s keys k s',
  editor_new E p f ib h w cb ttys = ORet tt s -> (vi_init E1 ;;; run_keys vi_core keys) (vi_new, s) = ORet false (k, s') ->
  exists sb n d l, n + 1 = match e_ttywidth E with Some n => n | None => 80 end /\
    ed_tty sb = ttys ++ init_toks n (pr_prompt p) /\ ed_tcl sb = 1 /\ drawn sb (d :: l) s' /\ alike (rd_to d) s'.
Proof.
  intros E E1 p f ib h w cb ttys s keys k s' H0 H1. destruct (new_up _ _ _ _ _ _ _ _ _ H0) as [sb [n [A1 [A2 [A3 A4]]]]].
  assert (Hw : wp (vi_init E1 ;;; run_keys vi_core keys) (vi_new, s) (fun d y => d = false -> Up sb (snd y)) anyE anyP).
  { apply wp_bind. eapply wp_mono; [apply (ku_vi_init sb E1 (vi_new, s) A4)| | |]; auto.
    intros u y Hy. apply up_run_keys; [apply ku_vi_core|exact Hy]. }
  destruct (wp_ret_of _ _ _ _ _ _ _ Hw H1 eq_refl) as [d [l [K1 K2]]]. exists sb, n, d, l. auto.
Qed.

(** * The screen *)

Lemma display_search : forall E s u s', display E s = ORet u s' -> is_search s' = is_search s.
Proof.
  intros E s u s' H. pose proof (display_out E s) as K. rewrite H in K. destruct K as [g [b [tcl [cb [tty [_ [_ ->]]]]]]].
  change (is_search (refreshed s) = is_search s). unfold refreshed. destruct (is_search s && ed_changed s) eqn:E1; [|reflexivity].
  apply andb_prop in E1 as [E1 _]. rewrite E1. unfold refresh_search, is_search. edsimp. destruct (ed_fwd s); reflexivity.
Qed.
Lemma display_cur : forall E s u s', display E s = ORet u s' -> exists b, cur_buf s' = Val b.
Proof.
  intros E s u s' H. pose proof (display_out E s) as K. rewrite H in K. destruct K as [g [b [tcl [cb [tty [_ [Hb ->]]]]]]].
  exists b. exact Hb.
Qed.

(** One more redraw, its beginning in row [r0] or below. *)
Lemma plain_redraw : forall W cw E s u s' prompt n pv t,
  display E s = ORet u s' -> terminal_width (e_size E) = Some W ->
  search_prompt (e_uni E) s' = Val (prompt, n) -> on_screen s' t -> drawable W cw (e_uni E) prompt pv t s' ->
  ed_hint s' = None -> (N.of_nat (ed_tcl s) < 65536)%N ->
  exists toks, ed_tty s' = ed_tty s ++ toks /\
  forall T g, t_st T = Ground ->
    let r := t_row T - (ed_tcl s - 1) in
    exists L e, laid W (length pv) (r, 0) (pv ++ t) L e /\
      exactly r L g (paints W cw T g (render_toks toks)) /\
      t_st (shows W cw T toks) = Ground /\ t_row (shows W cw T toks) = r + (ed_tcl s' - 1) /\
      (is_search s' = false -> exists L1, laid W (length pv) (r, 0) (pv ++ firstn (ed_cursor s') t) L1
          (t_row (shows W cw T toks), t_col (shows W cw T toks))).
Proof.
  intros W cw E s u s' prompt n pv t H HW Hsp Hon D Hh Htcl.
  destruct (redraw_exact W cw E s u s' prompt n pv t H HW Hsp Hon D Hh Htcl) as [toks [K1 K2]].
  exists toks. split; [exact K1|]. intros T g HT r. destruct (K2 T g HT) as [L [e [A1 [A2 [A3 A4]]]]].
  exists L, e. repeat (split; [assumption|]). intro Hs.
  pose proof (display_search _ _ _ _ H) as Hs0. rewrite Hs in Hs0. symmetry in Hs0.
  assert (Ep : prompt = pr_string (ed_prompt s')).
  { unfold search_prompt in Hsp. rewrite Hs in Hsp. injection Hsp as <- _. reflexivity. }
  subst prompt. destruct (redraw_cursor W cw E s u s' pv t H Hs0 HW Hon D) as [toks' [B1 [_ B2]]].
  rewrite K1 in B1. apply app_inv_head in B1. subst toks'.
  destruct (B2 T HT) as [r' [L0 [L1 [L2 [p [e' [C1 [C2 [_ C4]]]]]]]]]. destruct (C4 Hh) as [_ [_ C5]].
  specialize (C5 Htcl). subst r'. exists L1. rewrite C1. cbn [t_row t_col]. destruct p. exact C2.
Qed.

Lemma drawn_rows : forall W cw sb l s, drawn sb l s -> Forall (plain W cw) l -> ed_tcl sb = 1 ->
  exists toks, ed_tty s = ed_tty sb ++ toks /\
  forall T g, t_st T = Ground ->
    t_st (shows W cw T toks) = Ground /\ (forall i j, i < t_row T -> paints W cw T g (render_toks toks) i j = g i j) /\
    exists r, t_row T <= r /\ (Forall (fun d => rd_clear d = false) l -> r = t_row T) /\ t_row (shows W cw T toks) = r + (ed_tcl s - 1) /\
    match l with
    | [] => True
    | d :: _ => forall prompt n pv t, search_prompt (e_uni (rd_env d)) (rd_to d) = Val (prompt, n) -> on_screen (rd_to d) t ->
        drawable W cw (e_uni (rd_env d)) prompt pv t (rd_to d) -> exists L e, laid W (length pv) (r, 0) (pv ++ t) L e /\
        (forall i j c, r <= i -> (paints W cw T g (render_toks toks) i j = Some c <-> In (i, j, c) L)) /\
        (is_search (rd_to d) = false -> exists L1, laid W (length pv) (r, 0) (pv ++ firstn (ed_cursor (rd_to d)) t) L1
          (t_row (shows W cw T toks), t_col (shows W cw T toks)))
    end.
Proof.
  intros W cw sb l s H. induction H as [s E1 E2|l E c s s1 s2 s' H IH E1 E2 Ed E3 E4]; intros F Hb.
  - exists []. rewrite app_nil_r. split; [exact E1|]. intros T g HT. split; [exact HT|]. split; [reflexivity|].
    exists (t_row T). split; [lia|]. split; [reflexivity|]. split; [|exact I]. rewrite E2, Hb. cbn. lia.
  - inversion F as [|x y Hd Fl]; subst x y. destruct (IH Fl Hb) as [toks [K1 K2]].
    destruct Hd as [prompt [n [pv [t [P1 [P2 [P3 [P4 [P5 P6]]]]]]]]]. cbn [rd_env rd_from rd_to] in *.
    destruct (plain_redraw W cw E s1 tt s2 prompt n pv t Ed P1 P2 P3 P4 P5 P6) as [more [Q1 Q2]].
    exists (toks ++ more). split; [rewrite E3, Q1, E1, K1, app_assoc; reflexivity|]. intros T g HT.
    destruct (K2 T g HT) as [A1 [A2 [r [A3 [A4 [A5 _]]]]]].
    assert (Ep : paints W cw T g (render_toks (toks ++ more)) = paints W cw (shows W cw T toks) (paints W cw T g (render_toks toks)) (render_toks more)).
    { unfold render_toks at 1. rewrite flat_map_app. apply paints_app. }
    rewrite Ep, shows_app. destruct (Q2 _ (paints W cw T g (render_toks toks)) A1) as [L [e [B1 [B2 [B3 [B4 B5]]]]]].
    set (r' := t_row (shows W cw T toks) - (ed_tcl s1 - 1)) in *.
    assert (Hr : t_row T <= r' /\ (c = false -> r' = r)).
    { unfold r'. rewrite A5, E2. destruct c; [split; [lia|discriminate]|split; [lia|intro; lia]]. }
    destruct Hr as [Hr1 Hr2].
    split; [exact B3|]. split.
    { intros i j Hi. destruct B2 as [B2 _]. rewrite B2 by lia. apply A2. exact Hi. }
    exists r'. split; [exact Hr1|]. split.
    { intro Fc. inversion Fc as [|x y Hc Fc']; subst x y. cbn [rd_clear] in Hc. rewrite (Hr2 Hc). apply A4. exact Fc'. }
    split; [rewrite B4, E4; reflexivity|].
    intros prompt0 n0 pv0 t0 P20 P30 P40.
    destruct (plain_redraw W cw E s1 tt s2 prompt0 n0 pv0 t0 Ed P1 P20 P30 P40 P5 P6) as [more0 [Q10 Q20]].
    rewrite Q1 in Q10. apply app_inv_head in Q10. subst more0.
    destruct (Q20 _ (paints W cw T g (render_toks toks)) A1) as [L0 [e0 [C1 [C2 [_ [_ C5]]]]]].
    exists L0, e0. split; [exact C1|]. split; [destruct C2 as [_ C2]; exact C2|exact C5].
Qed.

Lemma drawn_screen : forall W cw sb d l s, drawn sb (d :: l) s -> alike (rd_to d) s -> Forall (plain W cw) (d :: l) -> ed_tcl sb = 1 ->
  exists toks prompt n pv t, ed_tty s = ed_tty sb ++ toks /\
  search_prompt (e_uni (rd_env d)) s = Val (prompt, n) /\ styled (narrow cw) prompt pv /\ on_screen s t /\
  forall T g, t_st T = Ground ->
    let T' := shows W cw T toks in let g' := paints W cw T g (render_toks toks) in
    (forall i j, i < t_row T -> g' i j = g i j) /\
    exists r L e, t_row T <= r /\ (Forall (fun d => rd_clear d = false) (d :: l) -> r = t_row T) /\
      laid W (length pv) (r, 0) (pv ++ t) L e /\ (forall i j c, r <= i -> (g' i j = Some c <-> In (i, j, c) L)) /\
      (is_search s = false -> exists L1, laid W (length pv) (r, 0) (pv ++ firstn (ed_cursor s) t) L1 (t_row T', t_col T')).
Proof.
  intros W cw sb d l s H A F Hb. destruct (drawn_rows W cw sb (d :: l) s H F Hb) as [toks [K1 K2]].
  pose proof F as F0. inversion F0 as [|x y Hd Fl]; subst x y. destruct Hd as [prompt [n [pv [t [P1 [P2 [P3 [P4 [P5 P6]]]]]]]]].
  assert (Hc : exists b, cur_buf (rd_to d) = Val b).
  { inversion H; subst. cbn [rd_to]. eapply display_cur. eassumption. }
  exists toks, prompt, n, pv, t. split; [exact K1|]. split; [exact (alike_prompt _ _ _ _ A Hc P2)|].
  split; [exact (dr_prompt _ _ _ _ _ _ _ P4)|]. split; [exact (alike_on_screen _ _ _ A P3)|].
  intros T g HT T' g'. destruct (K2 T g HT) as [_ [B2 [r [B3 [B4 [_ B6]]]]]].
  split; [exact B2|]. destruct (B6 prompt n pv t P2 P3 P4) as [L [e [C1 [C2 C3]]]]. exists r, L, e.
  repeat (split; [assumption|]). destruct A as [_ [A2 [_ [A4 _]]]]. rewrite A2, A4. exact C3.
Qed.
