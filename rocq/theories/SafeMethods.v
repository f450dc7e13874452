(** No panic: the editor's methods. *)
From Verif Require Import Base Utf8 BufferModel UtilModel HistoryModel EditorState EditorModel
  KeymapModel MonadLemmas EditorLemmas CursorProofs Lemmas BufferSpec BufferProofs TextProofs UtilSpec UtilProofs
  HistorySpec HistoryProofs EditorSpec EditorProofs SuggestProofs TabSpec TabProofs
  SafeSpec SafeProofs SafeEditor.
Local Open Scope monad_scope.

Lemma wcm_safe : forall {A} (f : buffer -> res (A * buffer)) s b a b' (Q : A -> ed -> Prop), cur_buf s = Val b ->
  f (opened s b) = Val (a, b') -> Q a (store b' s) -> safe (with_cur_mut f) s Q.
Proof. intros A f s b a b' Q Hb Hf HQ. unfold safe, wp. rewrite (with_cur_mut_eq f s b Hb), Hf. exact HQ. Qed.
Lemma store_cursor : forall b s, ed_cursor (store b s) = ed_cursor s.
Proof. intros b s. unfold store. destruct (ed_loc s); reflexivity. Qed.
Lemma store_search : forall b s, is_search (store b s) = is_search s.
Proof. intros b s. unfold store. destruct (ed_loc s); reflexivity. Qed.
Lemma store_sugg : forall b s, ed_sugg (store b s) = ed_sugg s.
Proof. intros b s. unfold store. destruct (ed_loc s); reflexivity. Qed.
Lemma get_cur_safe : forall s b (Q : buffer -> ed -> Prop), cur_buf s = Val b -> Q b s -> safe get_cur s Q.
Proof. intros s b Q Hb HQ. unfold safe, wp, get_cur. rewrite Hb. exact HQ. Qed.
Lemma sub_chk_le : forall a b, b <= a -> sub_chk a b = Val (a - b).
Proof. intros a b H. unfold sub_chk. apply Nat.leb_le in H. rewrite H. reflexivity. Qed.

Section Safe.
  Context (ascii flat srch lay : bool) (Hfits : fits ascii flat srch).
  Notation okt := (ok_text ascii flat srch).
  Notation okc := (ok_char ascii flat srch).
  Notation bufok := (bufok ascii flat srch).
  Notation G := (G ascii flat srch lay).
  Notation sug := (sug ascii flat srch).
  Notation F := (F ascii flat srch lay).
  Context (E : env) (HE : ok_env ascii flat srch E).

  Ltac gsame := eapply G_same; [eassumption|reflexivity..].
  Notation dsafe := (display_safe ascii flat srch lay Hfits E HE).

  Lemma move_end_safe : forall s, G s -> safe (move_cursor_to_end_of_line E) s (fun _ => F).
  Proof.
    intros s H. destruct (cur_safe _ _ _ _ s H) as [b [Hb _]]. apply safe_bind. eapply get_cur_safe; [exact Hb|].
    apply safe_bind, safe_modify, dsafe. gsame.
  Qed.
  Lemma move_start_safe : forall s, G s -> safe (move_cursor_to_start_of_line E) s (fun _ => F).
  Proof. intros s H. apply safe_bind, safe_modify, dsafe. gsame. Qed.
  Lemma move_to_safe : forall s n, G s -> safe (move_cursor_to E n) s (fun _ => F).
  Proof.
    intros s n H. destruct (cur_safe _ _ _ _ s H) as [b [Hb _]]. apply safe_bind. eapply get_cur_safe; [exact Hb|].
    apply safe_bind, safe_modify, dsafe. gsame.
  Qed.
  Lemma left_safe : forall s n, G s -> safe (move_cursor_left E n) s (fun _ => F).
  Proof. intros s n H. apply safe_bind, safe_modify, dsafe. gsame. Qed.
  Lemma right_safe : forall s n, G s -> cur s -> safe (move_cursor_right E n) s (fun _ => F).
  Proof.
    intros s n H Hc. destruct (cur_safe _ _ _ _ s H) as [b [Hb _]]. apply safe_bind. eapply get_cur_safe; [exact Hb|].
    apply safe_bind, wp_get, safe_bind. eapply safe_liftr; [apply sub_chk_le, Hc, Hb|].
    apply safe_bind, safe_modify, dsafe. gsame.
  Qed.
  Lemma set_cursor_store : forall s b f, G s -> bufok b -> G (set_cursor f (store b s)).
  Proof. intros s b f H Hb. eapply G_same; [apply (G_store _ _ _ _ s b H Hb)|reflexivity..]. Qed.

  Lemma opened_len : forall s b, length (data (opened s b)) = length (data b).
  Proof. intros s b. rewrite data_opened. reflexivity. Qed.

  Lemma insert_chars_safe : forall s t, G s -> cur s -> okt t -> safe (insert_chars_after_cursor E t) s (fun _ => F).
  Proof.
    intros s t H Hc Ht. destruct (cur_safe _ _ _ _ s H) as [b [Hb [_ Ho]]]. apply safe_bind, wp_gets, safe_bind.
    destruct (insert_safe _ _ _ (opened s b) (ed_cursor s) t Ho Ht) as [b' [Eb Hb']]; [rewrite opened_len; apply Hc, Hb|].
    eapply wcm_safe; [exact Hb|unfold unit_op; rewrite Eb; reflexivity|].
    apply safe_bind, safe_modify, dsafe. apply set_cursor_store; assumption.
  Qed.
  Lemma delete_before_safe : forall s, G s -> cur s -> safe (delete_before_cursor E) s (fun _ => F).
  Proof.
    intros s H Hc. destruct (cur_safe _ _ _ _ s H) as [b [Hb [_ Ho]]]. apply safe_bind, wp_gets, safe_bind.
    apply wp_when; intro Hk; [|apply dsafe; exact H].
    destruct (remove_safe _ _ _ (opened s b) (ed_cursor s - 1) (ed_cursor s) Ho) as [b' [Eb [Hb' _]]];
      [lia|rewrite opened_len; apply Hc, Hb|].
    apply safe_bind. eapply wcm_safe; [exact Hb|exact Eb|]. apply safe_modify, dsafe. apply set_cursor_store; assumption.
  Qed.
  Lemma delete_after_safe : forall s, G s -> safe (delete_after_cursor E) s (fun _ => F).
  Proof.
    intros s H. destruct (cur_safe _ _ _ _ s H) as [b [Hb [_ Ho]]]. apply safe_bind, wp_gets, safe_bind.
    destruct (ed_cursor s <? num_chars (opened s b)) eqn:El.
    - apply Nat.ltb_lt in El. destruct (remove_safe _ _ _ (opened s b) (ed_cursor s) (ed_cursor s + 1) Ho) as [b' [Eb [Hb' _]]];
        [lia|unfold num_chars in El; lia|].
      eapply wcm_safe; [exact Hb|cbv beta; apply Nat.ltb_lt in El; rewrite El, Eb; reflexivity|].
      apply dsafe. apply G_store; assumption.
    - eapply wcm_safe; [exact Hb|cbv beta; rewrite El; reflexivity|]. apply dsafe. apply G_store; assumption.
  Qed.
  Lemma delete_all_before_safe : forall s, G s -> cur s -> safe (delete_all_before_cursor E) s (fun _ => F).
  Proof.
    intros s H Hc. destruct (cur_safe _ _ _ _ s H) as [b [Hb [_ Ho]]]. apply safe_bind, wp_gets, safe_bind.
    destruct (remove_safe _ _ _ (opened s b) 0 (ed_cursor s) Ho) as [b' [Eb [Hb' _]]]; [lia|rewrite opened_len; apply Hc, Hb|].
    eapply wcm_safe; [exact Hb|exact Eb|]. apply safe_bind, safe_modify, dsafe. apply set_cursor_store; assumption.
  Qed.
  Lemma delete_all_after_safe : forall s, G s -> cur s -> safe (delete_all_after_cursor E) s (fun _ => F).
  Proof.
    intros s H Hc. destruct (cur_safe _ _ _ _ s H) as [b [Hb [_ Ho]]]. apply safe_bind, wp_gets, safe_bind.
    destruct (truncate_safe _ _ _ (opened s b) (ed_cursor s) Ho) as [b' [Eb [Hb' _]]]; [rewrite opened_len; apply Hc, Hb|].
    eapply wcm_safe; [exact Hb|unfold unit_op; rewrite Eb; reflexivity|]. apply dsafe. apply G_store; assumption.
  Qed.
  Lemma delete_until_safe : forall s n, G s -> cur s -> (forall b, cur_buf s = Val b -> n <= length (data b)) ->
    safe (delete_until E n) s (fun _ => F).
  Proof.
    intros s n H Hc Hn. destruct (cur_safe _ _ _ _ s H) as [b [Hb [_ Ho]]]. apply safe_bind, wp_gets, safe_bind.
    specialize (Hc b Hb). specialize (Hn b Hb).
    destruct (remove_safe _ _ _ (opened s b) (Nat.min (ed_cursor s) n) (Nat.max (ed_cursor s) n) Ho) as [b' [Eb [Hb' _]]];
      [lia|rewrite opened_len; lia|].
    eapply wcm_safe; [exact Hb|exact Eb|]. apply safe_bind, safe_modify, dsafe. apply set_cursor_store; assumption.
  Qed.
  Lemma delete_until_inc_safe : forall s n, G s -> (forall b, cur_buf s = Val b -> ed_cursor s < length (data b) /\ n < length (data b)) ->
    safe (delete_until_inclusive E n) s (fun _ => F).
  Proof.
    intros s n H Hn. destruct (cur_safe _ _ _ _ s H) as [b [Hb [_ Ho]]]. apply safe_bind, wp_gets, safe_bind.
    specialize (Hn b Hb).
    destruct (remove_safe _ _ _ (opened s b) (Nat.min (ed_cursor s) n) (Nat.max (ed_cursor s + 1) (n + 1)) Ho) as [b' [Eb [Hb' _]]];
      [lia|rewrite opened_len; lia|].
    eapply wcm_safe; [exact Hb|exact Eb|]. apply safe_bind, safe_modify, dsafe. apply set_cursor_store; assumption.
  Qed.
  Lemma word_safe : forall s b ig, cur s -> cur_buf s = Val b ->
    exists w, get_word_before_cursor E ig s = Val w /\
      forall x y, w = Some (x, y) -> x <= ed_cursor s /\ x <= y /\ y <= length (data b).
  Proof.
    intros s b ig Hc Hb. destruct HE as [_ [HW _]]. destruct (HW (data b)) as [H1 H2].
    apply word_before_safe; auto.
  Qed.
  Lemma delete_word_safe : forall s ig, G s -> cur s -> safe (delete_word_before_cursor E ig) s (fun _ => F).
  Proof.
    intros s ig H Hc. destruct (cur_safe _ _ _ _ s H) as [b [Hb [_ Ho]]]. apply safe_bind, wp_get, safe_bind.
    destruct (word_safe s b ig Hc Hb) as [w [Ew Hw]]. eapply safe_liftr; [exact Ew|]. apply safe_bind.
    destruct w as [[x y]|]; [|apply wp_ret, dsafe; exact H]. destruct (Hw x y eq_refl) as [K _].
    destruct (remove_safe _ _ _ (opened s b) x (ed_cursor s) Ho) as [b' [Eb [Hb' _]]]; [exact K|rewrite opened_len; apply Hc, Hb|].
    apply safe_bind. eapply wcm_safe; [exact Hb|exact Eb|]. apply safe_bind.
    eapply safe_liftr; [apply sub_chk_le; lia|]. apply safe_modify, dsafe. apply set_cursor_store; assumption.
  Qed.
  Lemma clear_safe : forall s, G s -> safe (clear E) s (fun _ => F).
  Proof. intros s H. apply safe_bind, safe_modify, dsafe. apply G_clear. gsame. Qed.
  Lemma undo_like_safe : forall s f, G s -> (forall b, bufok b -> goodp ascii flat srch (f b)) ->
    safe (undo_like E f) s (fun _ => F).
  Proof.
    intros s f H Hf. destruct (cur_safe _ _ _ _ s H) as [b [Hb [_ Ho]]]. destruct (Hf _ Ho) as [a [b' [Eb Hb']]].
    apply safe_bind. eapply wcm_safe; [exact Hb|exact Eb|].
    assert (H' : G (store b' s)) by (apply G_store; assumption).
    eapply safe_seq with (R := fun _ => F); [|intros u s' K; exact K].
    destruct a; [apply move_end_safe|apply dsafe]; exact H'.
  Qed.

  Lemma G_step : forall s fw, G s -> G (search_step fw s).
  Proof.
    intros s fw H. unfold search_step. destruct (ed_subset s) as [|x l] eqn:Es; [exact H|].
    destruct (ed_subloc s) as [p|] eqn:Ep.
    - pose proof (g_subloc _ _ _ _ s H p Ep) as Hp. rewrite Es in Hp.
      destruct H; constructor; edsimp; try assumption. intros i Ei. injection Ei as <-. rewrite Es in *. cbn [length] in *.
      destruct fw; [destruct (Nat.ltb_spec p (length l - 0)); lia|].
      destruct (0 <? p); lia.
    - destruct H; constructor; edsimp; try assumption. intros; discriminate.
  Qed.
  Lemma search_safe : forall s fw, G s -> srch = true -> safe (search E fw) s (fun _ => F).
  Proof.
    intros s fw H Hs. apply safe_bind, safe_modify, dsafe. cbv beta. destruct (negb (is_search s)).
    - rewrite (freshen_same _ _ _ _ s H). apply G_refresh; assumption.
    - apply G_step. exact H.
  Qed.
  Lemma sub_lt : forall s i, G s -> i < length (ed_subset s) ->
    exists l, index (ed_subset s) i = Val l /\ l < hist_len (ed_history s).
  Proof.
    intros s i H Hi. destruct (index_val _ _ Hi) as [l [El Hl]]. exists l. split; [exact El|].
    pose proof (g_sub _ _ _ _ s H) as K. rewrite Forall_forall in K. auto.
  Qed.
  Lemma G_subloc : forall s i, G s -> i < length (ed_subset s) -> G (set_subloc (Some i) s).
  Proof. intros s i [] Hi. constructor; edsimp; try assumption. intros j Ej. injection Ej as <-. exact Hi. Qed.

  Lemma up_safe : forall s, G s -> safe (move_up E) s (fun _ => F).
  Proof.
    intros s H. apply safe_bind, wp_get. destruct (is_search s) eqn:Es.
    { apply search_safe; [exact H|]. apply (g_srch _ _ _ _ s H). exact Es. }
    apply safe_bind, safe_modify. cbv beta.
    assert (H1 : G (set_hvalid false s)) by gsame. rewrite (freshen_same _ _ _ _ _ H1). clear H.
    assert (E1 : lay = true -> is_search (set_hvalid false s) = false) by (intros _; exact Es).
    revert H1 E1. generalize (set_hvalid false s). clear Es s. intros s H Es. apply safe_bind, wp_get.
    eapply safe_seq with (R := fun _ => G); [|intros u s' K; apply move_end_safe; exact K].
    destruct (0 <? num_chars (ed_new s)).
    - destruct (ed_subloc s) as [i|] eqn:Ei.
      + destruct (0 <? i); [|exact H]. pose proof (g_subloc _ _ _ _ s H i Ei) as Hi.
        destruct (sub_lt s (i - 1) H) as [l [El Hl]]; [lia|]. apply safe_bind. eapply safe_liftr; [exact El|].
        apply safe_modify. apply G_loc; [|exact Es|exact Hl]. apply G_subloc; [exact H|lia].
      + set (sub := get_history_subset (ed_history s) (ed_new s)).
        assert (Hsub : Forall (fun i => i < hist_len (ed_history s)) sub).
        { unfold sub, get_history_subset. apply Forall_app. split; apply filter_seq_lt. }
        assert (H2 : G (set_subset sub s)).
        { destruct H; constructor; edsimp; try assumption. rewrite Ei. intros; discriminate. }
        apply safe_bind, safe_modify. destruct sub as [|x l] eqn:Ex; [exact H2|]. rewrite <- Ex in *.
        assert (Hl : length sub - 1 < length (ed_subset (set_subset sub s))) by (edsimp; rewrite Ex; cbn [length]; lia).
        destruct (sub_lt (set_subset sub s) (length sub - 1) H2 Hl) as [k [Ek Hk]].
        apply safe_bind. eapply safe_liftr; [exact Ek|]. apply safe_modify. apply G_loc; [|exact Es|exact Hk].
        apply G_subloc; [exact H2|exact Hl].
    - destruct (ed_loc s) as [i|] eqn:Ei.
      + destruct (0 <? i); [|exact H]. apply safe_modify. apply G_loc; [exact H|exact Es|]. pose proof (g_loc _ _ _ _ s H i Ei). lia.
      + destruct (hist_is_empty (ed_history s)) eqn:Eh; cbn [negb]; [exact H|]. apply safe_modify. apply G_loc; [exact H|exact Es|].
        unfold hist_is_empty, hist_len in *. destruct (buffers (ed_history s)); [discriminate|cbn [length]; lia].
  Qed.
  Lemma down_safe : forall s, G s -> safe (move_down E) s (fun _ => F).
  Proof.
    intros s H. apply safe_bind, wp_get. destruct (is_search s) eqn:Es.
    { apply search_safe; [exact H|]. apply (g_srch _ _ _ _ s H). exact Es. }
    apply safe_bind, safe_modify. cbv beta.
    assert (H1 : G (set_hvalid false s)) by gsame. clear H.
    assert (E1 : lay = true -> is_search (set_hvalid false s) = false) by (intros _; exact Es).
    revert H1 E1. generalize (set_hvalid false s). clear Es s. intros s H Es. apply safe_bind, wp_get.
    eapply safe_seq with (R := fun _ => G); [|intros u s' K; apply move_end_safe; exact K].
    destruct (0 <? num_chars (ed_new s)).
    - destruct (ed_subloc s) as [i|] eqn:Ei; [|exact H]. pose proof (g_subloc _ _ _ _ s H i Ei) as Hi.
      apply safe_bind. eapply safe_liftr; [apply sub_chk_le; lia|].
      destruct (i <? length (ed_subset s) - 1) eqn:El.
      + apply Nat.ltb_lt in El. destruct (sub_lt s (i + 1) H) as [l [Ek Hl]]; [lia|]. apply safe_bind. eapply safe_liftr; [exact Ek|].
        apply safe_modify. apply G_loc; [|exact Es|exact Hl]. apply G_subloc; [exact H|lia].
      + apply safe_modify. destruct H; constructor; edsimp; try assumption; try constructor; intros; discriminate.
    - apply safe_bind, safe_modify. destruct (ed_loc s) as [i|] eqn:Ei.
      + pose proof (g_loc _ _ _ _ s H i Ei) as Hi. apply safe_bind. eapply safe_liftr; [apply sub_chk_le; lia|].
        destruct (i <? hist_len (ed_history s) - 1) eqn:El; apply safe_modify.
        * apply Nat.ltb_lt in El. apply (G_loc _ _ _ _ (set_loc None s)); [apply G_noloc; exact H|exact Es|edsimp; lia].
        * apply G_noloc in H. gsame.
      + apply safe_modify. apply G_noloc in H. gsame.
  Qed.
  Lemma hist_start_safe : forall s, lay = false -> G s -> safe (move_to_start_of_history E) s (fun _ => F).
  Proof.
    intros s Hlay H. apply safe_bind, safe_modify, safe_bind, wp_get. edsimp.
    assert (H1 : G (set_hvalid false s)) by gsame.
    destruct (hist_is_empty (ed_history s)) eqn:Eh; apply safe_bind, safe_modify.
    - apply dsafe. apply G_noloc. exact H1.
    - apply move_end_safe. apply G_loc; [exact H1|congruence|]. edsimp. unfold hist_is_empty, hist_len in *.
      destruct (buffers (ed_history s)); [discriminate|cbn [length]; lia].
  Qed.
  Lemma hist_end_safe : forall s, G s -> safe (move_to_end_of_history E) s (fun _ => F).
  Proof.
    intros s H. apply safe_bind, safe_modify, safe_bind, wp_get. edsimp.
    assert (H1 : G (set_hvalid false s)) by gsame.
    destruct (ed_loc s); [apply safe_bind, safe_modify, move_end_safe, G_noloc; exact H1|apply dsafe; exact H1].
  Qed.
  Lemma accept_safe : forall s, G s -> sug s -> safe (accept_autosuggestion E) s (fun _ => F).
  Proof.
    intros s H Hs. destruct (cur_safe _ _ _ _ s H) as [b [Hb [_ Ho]]]. apply safe_bind, wp_get.
    eapply safe_seq with (R := fun _ => G).
    - apply wp_when; intro Hk; [|exact H].
      assert (K : good ascii flat srch (match ed_sugg s with
        | Some x => if is_search s then copy_buffer (opened s b) x else insert_from_buffer (opened s b) x
        | None => Val (opened s b) end)).
      { destruct (ed_sugg s) as [g|] eqn:Eg; [|exists (opened s b); auto]. destruct (Hs g Eg) as [Hg Hx].
        destruct (is_search s).
        - rewrite copy_buffer_eq. eexists. split; [reflexivity|]. apply copied_ok; assumption.
        - destruct (Hx eq_refl b Hb) as [r Er]. eapply extend_safe; [exact Ho|exact Hg|]. rewrite data_opened. exact Er. }
      destruct K as [b' [Eb Hb']]. eapply wcm_safe; [exact Hb|unfold unit_op; rewrite Eb; reflexivity|].
      apply G_store; assumption.
    - intros u s' H'. apply safe_bind, safe_modify. apply move_end_safe. apply G_clear. exact H'.
  Qed.
End Safe.
