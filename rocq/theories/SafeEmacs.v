(** No panic: completion, Enter, the Emacs key map and whole sessions. *)
From Verif Require Import Base Utf8 BufferModel UtilModel HistoryModel EditorState EditorModel
  KeymapModel MonadLemmas EditorLemmas CursorProofs Lemmas BufferSpec BufferProofs TextProofs UtilSpec UtilProofs
  HistorySpec HistoryProofs EditorSpec EditorProofs SuggestProofs TabSpec TabProofs
  SafeSpec SafeProofs SafeEditor SafeMethods.
Local Open Scope monad_scope.

Ltac pres := first [solve [auto with cur] | apply restores_preserves; auto with cur].

Lemma safe_lift : forall {K A} (m : ME A) (k : K) s (Q : A -> K * ed -> Prop),
  safe m s (fun a s' => Q a (k, s')) -> safe (lift m) (k, s) Q.
Proof. intros. apply wp_lift. exact H. Qed.
Lemma safe_frame : forall {A} (m : ME A) s (Q : A -> ed -> Prop), safe m s Q -> keeps frame m ->
  safe m s (fun a s' => Q a s' /\ frame s s').
Proof. intros A m s Q H K. specialize (K s). unfold safe, wp in *. destruct (m s); auto. Qed.

Section Safe.
  Context (ascii flat srch lay : bool) (Hfits : fits ascii flat srch).
  Notation okt := (ok_text ascii flat srch).
  Notation okc := (ok_char ascii flat srch).
  Notation bufok := (bufok ascii flat srch).
  Notation G := (G ascii flat srch lay).
  Notation sug := (sug ascii flat srch).
  Notation F := (F ascii flat srch lay).
  Ltac gsame := eapply G_same; [eassumption|reflexivity..].

  Lemma F_hint : forall s, F s -> F (set_hint None s).
  Proof. intros s [H1 [H2 H3]]. split; [apply G_hint; exact H1|]. split; [exact H2|exact H3]. Qed.
  Lemma F_clear : forall s, F s -> is_search s = false -> F (clear_search s).
  Proof.
    intros s [H1 [H2 H3]] Hn. split; [apply G_clear; exact H1|]. split; [exact H2|].
    intros g Hg. destruct (H3 g Hg) as [K1 K2]. split; [exact K1|]. intros _. exact (K2 Hn).
  Qed.
  Lemma F_store : forall s b b', F s -> cur_buf s = Val b -> bufok b' -> data b' = data b -> F (store b' s).
  Proof.
    intros s b b' [H1 [H2 H3]] Hb Hb' Hd. split; [apply G_store; assumption|]. split.
    - intros x Hx. rewrite cur_store in Hx. injection Hx as <-. rewrite store_cursor, Hd. apply H2. exact Hb.
    - intros g Hg. rewrite store_sugg in Hg. destruct (H3 g Hg) as [K1 K2]. split; [exact K1|].
      rewrite store_search. intros Hn x Hx. rewrite cur_store in Hx. injection Hx as <-. rewrite Hd. exact (K2 Hn b Hb).
  Qed.
  Lemma okt_prefix : forall p t, is_prefix p t -> okt t -> okt p.
  Proof. intros p t [r ->] H. apply okt_app in H. apply H. Qed.

  Section Env.
  Context (E : env) (HE : ok_env ascii flat srch E).
  Notation dsafe := (display_safe ascii flat srch lay Hfits E HE).
  Notation insafe := (insert_chars_safe ascii flat srch lay Hfits E HE).
  Notation dwsafe := (delete_word_safe ascii flat srch lay Hfits E HE).

  Lemma complete_safe : forall s, F s -> safe (complete E) s (fun _ => F).
  Proof.
    intros s HF. pose proof HF as [H [Hc Hs]]. apply safe_bind, wp_get.
    destruct (ed_hint s) as [[comps ix]|] eqn:Eh.
    - destruct (g_hint _ _ _ _ s H comps ix Eh) as [Hok [Hne Hix]]. apply safe_bind, safe_modify.
      pose proof (F_hint s HF) as HF1. clear HF H Hc Hs Eh. revert HF1. generalize (set_hint None s). clear s.
      intros s [H [Hc Hs]].
      assert (Hlen : length comps <> 0) by (destruct comps; cbn; congruence).
      assert (Hi : exists i, match ix with None => Val 0
                | Some i => if length comps =? 0 then Pan PDivZero else Val ((i + 1) mod length comps) end = Val i /\ i < length comps).
      { destruct ix as [x|]; [|exists 0; split; [reflexivity|lia]].
        destruct (length comps =? 0) eqn:E0; [apply Nat.eqb_eq in E0; congruence|].
        eexists. split; [reflexivity|]. apply Nat.mod_upper_bound. exact Hlen. }
      destruct Hi as [i [Ei Hi]]. apply safe_bind. eapply safe_liftr; [exact Ei|].
      destruct (cur_safe _ _ _ _ s H) as [b [Hb [_ Ho]]].
      eapply safe_seq with (R := fun (_ : bool) s' => s' = s).
      { destruct ix as [x|]; [|reflexivity]. apply safe_bind. eapply get_cur_safe; [exact Hb|]. apply safe_bind.
        destruct (index_val comps x (Hix x eq_refl)) as [c [Ec _]]. eapply safe_liftr; [exact Ec|]. reflexivity. }
      intros w s' ->.
      eapply safe_seq with (R := fun _ s' => G s' /\ cur s').
      { destruct w.
        - destruct (truncate_safe _ _ _ (opened s b) 0 Ho) as [b' [Eb [Hb' _]]]; [lia|]. apply safe_bind.
          eapply wcm_safe; [exact Hb|unfold unit_op; rewrite Eb; reflexivity|]. apply safe_modify. split.
          + apply set_cursor_store; assumption.
          + intros x Hx. edsimp. lia.
        - eapply safe_mono; [apply dwsafe; assumption|]. intros u s' K. split; apply K. }
      intros u s' [H1 Hc1]. destruct (index_val comps i Hi) as [c [Ec Hcin]]. apply safe_bind. eapply safe_liftr; [exact Ec|].
      assert (Hoc : okt c) by (rewrite Forall_forall in Hok; auto).
      eapply safe_seq; [apply insafe; assumption|]. intros u' s2 [H2 _]. apply safe_bind, safe_modify, dsafe.
      destruct H2; constructor; edsimp; try assumption. intros comps' ix' Ex. injection Ex as <- <-. split; [exact Hok|].
      split; [exact Hne|]. intros j Ej. injection Ej as <-. exact Hi.
    - destruct (cur_safe _ _ _ _ s H) as [b [Hb [Hob Ho]]]. destruct (word_safe ascii flat srch E HE s b false Hc Hb) as [w [Ew Hw]].
      apply safe_bind. eapply safe_liftr; [exact Ew|].
      assert (Hr : exists word, match w with Some (st, en) => buf_range (opened s b) st en | None => Val [] end = Val word /\ okt word).
      { destruct w as [[x y]|]; [|exists []; split; [reflexivity|constructor]]. destruct (Hw x y eq_refl) as [_ [K1 K2]].
        unfold buf_range, slice. rewrite data_opened. apply Nat.leb_le in K1, K2. rewrite K1, K2. cbn [andb].
        eexists. split; [reflexivity|]. apply okt_firstn, okt_skipn. exact Hob. }
      destruct Hr as [word [Ewd Howd]]. apply safe_bind.
      eapply wcm_safe; [exact Hb|rewrite Ewd; reflexivity|].
      pose proof (F_store s b (opened s b) HF Hb Ho (data_opened s b)) as HF1. revert HF1.
      generalize (store (opened s b) s). intros s1 HF1. pose proof HF1 as [H1 [Hc1 Hs1]]. cbv zeta.
      assert (Hcomps : Forall okt (dedup_adj (sort_texts (e_complete E word)))).
      { destruct HE as [_ [_ HC]]. specialize (HC word Howd). rewrite Forall_forall in *. intros x Hx.
        apply HC. apply (choices_ok (e_complete E word)). exact Hx. }
      destruct (dedup_adj (sort_texts (e_complete E word))) as [|c0 [|c1 l]].
      + apply safe_modify, F_hint. exact HF1.
      + apply safe_bind, safe_modify. pose proof (F_hint s1 HF1) as [H2 [Hc2 _]].
        eapply safe_seq; [apply dwsafe; assumption|]. intros u s2 [H3 [Hc3 _]]. apply insafe; [assumption..|].
        inversion Hcomps; assumption.
      + assert (Hset : safe (modify (set_hint (Some (c0 :: c1 :: l, None))) ;;; display E) s1 (fun _ => F)).
        { apply safe_bind, safe_modify, dsafe. destruct H1; constructor; edsimp; try assumption.
          intros comps ix Ex. injection Ex as <- <-. split; [exact Hcomps|]. split; [discriminate|]. intros; discriminate. }
        pose proof (flcp_spec c0 c1 l) as Hp. destruct (find_longest_common_prefix (c0 :: c1 :: l)) as [p|]; [|exact Hset].
        destruct ((blen word <? blen p) && prefixb word p); [|exact Hset].
        eapply safe_seq; [apply dwsafe; assumption|]. intros u s2 [H3 [Hc3 _]]. apply insafe; [assumption..|].
        destruct Hp as [_ [Hp _]]. eapply okt_prefix; [apply Hp; left; reflexivity|]. inversion Hcomps; assumption.
  Qed.

  Lemma after_accept : forall s, safe (accept_autosuggestion E) s (fun _ => F) ->
    safe (accept_autosuggestion E) s (fun _ s' => F s' /\ is_search s' = false).
  Proof.
    intros s H.
    assert (K : wp (accept_autosuggestion E) s (fun _ s' => is_search s' = false) (fun _ _ => True) (fun _ => True)).
    { unfold accept_autosuggestion. apply wp_bind, wp_get, wp_bind.
      eapply wp_mono with (Q := fun _ _ => True) (X := fun _ _ => True) (P := fun _ => True); auto.
      { unfold wp. destruct (when _ _ s); auto. }
      intros u s1 _. apply wp_bind, wp_modify. unfold move_cursor_to_end_of_line. apply wp_bind.
      unfold wp at 1, get_cur. destruct (cur_buf (clear_search s1)) as [b|]; [|exact I].
      apply wp_bind, wp_modify. apply wp_display; auto. }
    unfold safe in *. pose proof (wp_and _ _ _ _ _ _ _ _ H K) as W. eapply wp_mono; [exact W|auto|auto|]. intros p [Hp _]. exact Hp.
  Qed.

  Lemma newline_ok_char : flat = false -> okc c_nl.
  Proof.
    intro Hf. split; [intros _; reflexivity|]. split; [intro K; congruence|]. intro Hs. destruct Hfits as [_ K].
    destruct (K Hs). congruence.
  Qed.
  Lemma newline_safe : forall s, F s -> safe (handle_newline E) s (fun _ => F).
  Proof.
    intros s HF. apply safe_bind, safe_modify. 
    assert (HF0 : F (set_fresh false s)) by (destruct HF as [H1 H2]; split; [gsame|exact H2]).
    revert HF0. generalize (set_fresh false s). clear HF s. intros s HF. apply safe_bind, wp_get.
    eapply safe_seq with (R := fun _ s' => F s' /\ is_search s' = false).
    { apply wp_when; intro Hk; [|split; assumption].
      apply after_accept. destruct HF as [H [_ Hs]]. apply (accept_safe ascii flat srch lay Hfits E HE); assumption. }
    intros u s1 [HF1 Hn]. apply safe_bind, safe_modify. pose proof (F_clear s1 HF1 Hn) as HF2. revert HF2.
    generalize (clear_search s1). clear HF HF1 Hn s1 s. intros s HF. pose proof HF as [H [Hc Hs]]. apply safe_bind, wp_get.
    destruct (ed_hint s); [apply safe_bind, safe_modify, wp_ret, F_hint; exact HF|].
    destruct (cur_safe _ _ _ _ s H) as [b [Hb [Hob _]]]. apply safe_bind. eapply get_cur_safe; [exact Hb|].
    assert (Hend : safe (modify (set_cursor (num_chars b)) ;;; display_impl E false ;;;
        tty_write E [TCRLF] ;;; modify (set_hint None) ;;; ret true) s (fun _ => F)).
    { apply safe_bind, safe_modify. eapply safe_seq;
        [apply (display_impl_safe ascii flat srch lay Hfits E HE); [gsame|exact Hs]|].
      intros u' s2 [K1 [K2 K3]]. apply safe_bind. unfold safe, wp, tty_write. destruct (e_wok E); [|exact I].
      apply wp_bind, wp_modify, wp_ret. apply F_hint. split; [gsame|]. split; [exact K2|exact K3]. }
    destruct (char_before b (ed_cursor s)) as [c|] eqn:Ec; [|exact Hend].
    destruct (N.eqb_spec c c_bs) as [->|_]; [|exact Hend].
    eapply safe_seq; [apply insafe; [exact H|exact Hc|]|intros u' s' K; exact K].
    constructor; [|constructor]. apply newline_ok_char; apply not_true_is_false; intro Hf;
      apply (okt_flat ascii flat srch (data b) Hf Hob); unfold char_before in Ec;
      destruct (ed_cursor s); [discriminate|]; eapply nth_error_In; exact Ec.
  Qed.

  Lemma move_word_safe : forall s r, F s -> safe (emacs_move_word E r) s (fun _ => F).
  Proof.
    intros s r HF. pose proof HF as [H [Hc Hs]]. apply safe_bind, wp_get, safe_bind.
    destruct (cur_safe _ _ _ _ s H) as [b [Hb _]]. unfold get_words_and_cursor_position. rewrite Hb. cbn [rbind].
    destruct (cpos_get_valid (e_words E (data b)) (ed_cursor s)) as [p [Ep Hp]]. rewrite Ep. cbn [rbind].
    eapply safe_liftr; [reflexivity|].
    set (ws := e_words E (data b)) in *. clearbody ws.
    assert (Hgo : forall i, i < length ws -> safe (match nth_error ws i with
      | None => pan PUnwrap | Some (start, end_) => move_cursor_to E (if r then end_ else start) end) s (fun _ => F)).
    { intros i Hi. destruct (nth_error ws i) as [[x y]|] eqn:En; [|apply nth_error_None in En; lia].
      apply (move_to_safe ascii flat srch lay Hfits E HE). exact H. }
    destruct p as [i|i|i|l r']; cbn [cpos_valid] in Hp; apply safe_bind.
    - apply wp_ret. apply Hgo. exact Hp.
    - apply wp_ret. apply Hgo. destruct ((0 <? i) && negb r); lia.
    - apply safe_bind. eapply safe_liftr; [apply sub_chk_le; lia|]. apply wp_ret, Hgo.
      destruct (i <? length ws - 1) eqn:El; cbn [andb]; [|exact Hp]. apply Nat.ltb_lt in El. destruct r; lia.
    - apply wp_ret. destruct Hp as [Hl Hr]. destruct r; [destruct r' as [j|]|destruct l as [j|]]; try exact HF; apply Hgo; auto.
  Qed.
  End Env.

  (** * The key map *)
  Definition KI (x : emacs * ed) : Prop := F (snd x) /\
    forall i, last_arg_fetch_index (fst x) = Some i -> i < hist_len (ed_history (snd x)).

  (** Methods that keep the history. *)
  Lemma klift : forall {A} (m : ME A) k s, KI (k, s) -> safe m s (fun _ => F) -> keeps frame m ->
    safe (lift m) (k, s) (fun _ y => KI y /\ ed_history (snd y) = ed_history s).
  Proof.
    intros A m k s [HF Hi] Hm Hk. apply safe_lift. eapply safe_mono; [apply (safe_frame m s _ Hm Hk)|].
    intros a s' [K1 K2]. cbn [fst snd] in *. assert (Eh : ed_history s' = ed_history s).
    { apply (fr_history _ _ K2). apply (g_share ascii flat srch lay s). apply HF. }
    split; [split; [exact K1|]|exact Eh]. cbn [fst snd]. rewrite Eh. exact Hi.
  Qed.
  Lemma klift' : forall {A} (m : ME A) k s, KI (k, s) -> safe m s (fun _ => F) -> keeps frame m ->
    safe (lift m) (k, s) (fun _ => KI).
  Proof. intros A m k s H Hm Hk. eapply safe_mono; [apply klift; assumption|]. intros a y K. apply K. Qed.

  Section Env2.
  Context (E : env) (HE : ok_env ascii flat srch E).

  Lemma last_arg_ok : forall b a, okt (data b) -> last_arg b = Some a -> okt a /\ length a <= length (data b).
  Proof.
    intros b a H Ha. apply last_arg_is in Ha. destruct Ha as [_ [_ [pre [n [Hd _]]]]]. rewrite Hd in *.
    apply okt_app in H as [_ H]. apply okt_app in H as [H _]. split; [exact H|]. rewrite !app_length. lia.
  Qed.
  Lemma last_arg_safe : forall k s, KI (k, s) -> safe (handle_last_arg_fetch E) (k, s) (fun _ => KI).
  Proof.
    intros k s HK. pose proof HK as [HF Hi]. cbn [fst snd] in *. pose proof HF as [H [Hc Hs]].
    unfold handle_last_arg_fetch. apply safe_bind. change (safe gete (k, s)) with (fun Q : ed -> emacs * ed -> Prop => Q s (k, s)).
    cbv beta. destruct (hist_is_empty (ed_history s)) eqn:Ee; [exact HK|].
    assert (Hne : 0 < hist_len (ed_history s)).
    { unfold hist_is_empty, hist_len in *. destruct (buffers (ed_history s)); [discriminate|cbn [length]; lia]. }
    apply safe_bind. change (safe getk (k, s)) with (fun Q : emacs -> emacs * ed -> Prop => Q k (k, s)). cbv beta.
    eapply safe_seq with (R := fun o y => y = (k, s) /\ forall i, o = Some i -> i < hist_len (ed_history s)).
    { destruct (last_arg_fetch_index k) as [[|x]|] eqn:Ek.
      - split; [reflexivity|intros; discriminate].
      - split; [reflexivity|]. intros i Ei. injection Ei as <-. specialize (Hi (S x) eq_refl). lia.
      - apply safe_bind. eapply safe_liftr; [apply sub_chk_le; lia|]. split; [reflexivity|]. intros i Ei. injection Ei as <-.
        destruct (ed_loc s) as [j|] eqn:El; [|lia]. exact (g_loc _ _ _ _ s H j El). }
    intros o y [-> Ho]. destruct o as [hi|]; [|exact HK]. specialize (Ho hi eq_refl).
    eapply safe_seq with (R := fun _ y => KI y /\ ed_history (snd y) = ed_history s).
    { destruct (last_arg_fetch_index k); [|split; [exact HK|reflexivity]].
      destruct (cur_safe _ _ _ _ s H) as [b [Hb [Hob _]]]. apply safe_bind, safe_lift. eapply get_cur_safe; [exact Hb|].
      destruct (last_arg b) as [a|] eqn:Ea; [|split; [exact HK|reflexivity]].
      destruct (last_arg_ok b a Hob Ea) as [_ Hl]. apply safe_bind. eapply safe_liftr; [apply sub_chk_le; exact Hl|].
      apply klift; [exact HK| |apply keeps_del_until].
      apply (delete_until_safe ascii flat srch lay Hfits E HE); [exact H|exact Hc|].
      intros b' Hb'. rewrite Hb in Hb'. injection Hb' as <-. unfold num_chars. lia. }
    intros u [k1 s1] [HK1 Eh]. cbn [fst snd] in *. apply safe_bind.
    change (safe gete (k1, s1)) with (fun Q : ed -> emacs * ed -> Prop => Q s1 (k1, s1)). cbv beta.
    pose proof HK1 as [[H1 [Hc1 _]] _]. cbn [snd] in *. rewrite <- Eh in Ho.
    destruct (hist_get_safe _ _ _ _ s1 hi H1 Ho) as [hb [Ehb Hohb]]. apply safe_bind. eapply safe_liftr; [exact Ehb|].
    eapply safe_seq with (R := fun _ y => KI y /\ ed_history (snd y) = ed_history s1).
    { destruct (last_arg hb) as [a|] eqn:Ea; [|split; [exact HK1|reflexivity]].
      apply klift; [exact HK1| |apply keeps_insert]. apply (insert_chars_safe ascii flat srch lay Hfits E HE); [exact H1|exact Hc1|].
      apply (last_arg_ok hb a Hohb Ea). }
    intros u2 [k2 s2] [[HF2 _] Eh2]. cbn [fst snd] in *. split; cbn [fst snd]; [exact HF2|]. intros i Ei. injection Ei as <-.
    rewrite Eh2. exact Ho.
  Qed.

  Lemma KI_any : forall k s, KI (k, s) -> KI (emacs_new, s).
  Proof. intros k s [H _]. split; [exact H|]. cbn. intros; discriminate. Qed.

  Lemma emacs_core_safe : lay = false -> forall k x s, (forall c, k = KChar c -> okc c) -> KI (x, s) -> safe (emacs_core E k) (x, s) (fun _ => KI).
  Proof.
    intros Hlay k x s Hk HK. unfold emacs_core.
    eapply safe_seq with (R := fun _ y => KI y /\ snd y = s).
    { assert (Hm : safe (modk (fun _ => mkEmacs None)) (x, s) (fun _ y => KI y /\ snd y = s))
        by (split; [eapply KI_any; exact HK|reflexivity]).
      destruct k; try exact Hm. destruct (is_char c "."); [split; [exact HK|reflexivity]|exact Hm]. }
    intros u [x1 s1] [HK1 Es]. cbn [snd] in Es. subst s1. clear HK x. pose proof HK1 as [[H [Hc Hs]] _]. cbn [snd] in *.
    assert (HF : F s) by (split; auto).
    destruct k as [c|c|c| | | | | | | | | | |n]; try exact HK1.
    - apply klift'; [exact HK1| |apply keeps_insert1]. apply (insert_chars_safe ascii flat srch lay Hfits E HE); auto.
      constructor; [apply Hk; reflexivity|constructor].
    - unfold emacs_alt. repeat match goal with |- safe (if ?c then _ else _) _ _ => destruct c end.
      + apply klift'; [exact HK1|apply (hist_start_safe ascii flat srch lay Hfits E HE); [exact Hlay|exact H]|apply keeps_hist_start].
      + apply klift'; [exact HK1|apply (hist_end_safe ascii flat srch lay Hfits E HE); exact H|apply keeps_hist_end].
      + apply klift'; [exact HK1|apply (delete_word_safe ascii flat srch lay Hfits E HE); assumption|apply keeps_del_word].
      + apply klift'; [exact HK1|apply (move_word_safe E HE); exact HF|unfold emacs_move_word; kp].
      + apply klift'; [exact HK1|apply (move_word_safe E HE); exact HF|unfold emacs_move_word; kp].
      + eapply safe_seq; [apply klift'; [exact HK1| |apply keeps_revert]|intros a y K; exact K].
        apply (undo_like_safe ascii flat srch lay Hfits E HE); [exact H|]. apply revert_safe.
      + apply last_arg_safe. exact HK1.
      + exact HK1.
    - apply klift'; [exact HK1| |unfold emacs_ctrl; kp]. unfold emacs_ctrl.
      repeat match goal with |- safe (if ?c then _ else _) _ _ => destruct c end; try exact HF.
      + apply (clear_safe ascii flat srch lay Hfits E HE); exact H.
      + apply (move_start_safe ascii flat srch lay Hfits E HE); exact H.
      + apply (move_end_safe ascii flat srch lay Hfits E HE); exact H.
      + apply (left_safe ascii flat srch lay Hfits E HE); exact H.
      + apply (right_safe ascii flat srch lay Hfits E HE); assumption.
      + apply (delete_after_safe ascii flat srch lay Hfits E HE); assumption.
      + apply (up_safe ascii flat srch lay Hfits E HE); assumption.
      + apply (down_safe ascii flat srch lay Hfits E HE); assumption.
      + apply (delete_all_before_safe ascii flat srch lay Hfits E HE); assumption.
      + apply (delete_all_after_safe ascii flat srch lay Hfits E HE); assumption.
      + apply (delete_word_safe ascii flat srch lay Hfits E HE); assumption.
      + eapply safe_seq; [apply (undo_like_safe ascii flat srch lay Hfits E HE); [exact H|apply undo_safe]|intros a y K; exact K].
    - apply klift'; [exact HK1|apply (left_safe ascii flat srch lay Hfits E HE); exact H|apply keeps_move_left].
    - apply klift'; [exact HK1|apply (right_safe ascii flat srch lay Hfits E HE); assumption|apply keeps_move_right].
    - apply klift'; [exact HK1|apply (up_safe ascii flat srch lay Hfits E HE); exact H|apply keeps_move_up].
    - apply klift'; [exact HK1|apply (down_safe ascii flat srch lay Hfits E HE); exact H|apply keeps_move_down].
    - apply klift'; [exact HK1|apply (move_start_safe ascii flat srch lay Hfits E HE); exact H|apply keeps_move_start].
    - apply klift'; [exact HK1|apply (move_end_safe ascii flat srch lay Hfits E HE); exact H|apply keeps_move_end].
    - apply klift'; [exact HK1|apply (delete_before_safe ascii flat srch lay Hfits E HE); assumption|apply keeps_del_before].
    - apply klift'; [exact HK1|apply (delete_after_safe ascii flat srch lay Hfits E HE); exact H|apply keeps_del_after].
  Qed.
  End Env2.

  (** * Any key map *)
  Lemma handle_key_at : forall {K} (core : env -> key -> MK K unit) (J : K * ed -> Prop) E k x s,
    ok_env ascii flat srch E -> ok_key ascii flat srch k -> F s ->
    (forall x s, J (x, s) -> J (x, set_hint None s)) ->
    (k = KRight -> forall b, showing_autosuggestion s = true -> cur_buf s = Val b -> ed_noeol s = true -> data b <> []) ->
    (k = KChar c_nl -> safe (lift (handle_newline E)) (x, s) (fun _ => J)) ->
    safe (lift (handle_newline E)) (x, s) (fun _ _ => True) ->
    (k = KRight \/ k = KCtrl (ch "f") -> showing_autosuggestion s = true -> safe (lift (accept_autosuggestion E)) (x, s) (fun _ => J)) ->
    (k = KChar c_tab -> safe (lift (complete E)) (x, s) (fun _ => J)) ->
    (k = KCtrl (ch "r") \/ k = KCtrl (ch "s") -> srch = true -> forall fw, safe (lift (search E fw)) (x, s) (fun _ => J)) ->
    (let k' := match k with KCtrl c => if is_char c "h" then KBackspace else k | _ => k end in
     (forall c, k' = KChar c -> okc c /\ k = k' /\ c <> c_nl) -> safe (core E k') (x, s) (fun _ => J)) ->
    safe (handle_key core E k) (x, s) (fun _ => J).
  Proof.
    intros K core J E k x s HE Hk HF Hhint Hright Hnl Hint Hacc Htab Hsearch Hcore. unfold handle_key. apply safe_bind.
    change (safe gete (x, s)) with (fun Q : ed -> K * ed -> Prop => Q s (x, s)). cbv beta.
    pose proof HF as [H [Hc Hs]]. destruct (cur_safe _ _ _ _ s H) as [b [Hb _]].
    apply safe_bind. unfold safe at 1, wp at 1. rewrite Hb. cbv zeta in *.
    set (k' := match k with KCtrl c => if is_char c "h" then KBackspace else k | _ => k end) in *.
    assert (Hoth : (forall c, k' = KChar c -> okc c /\ k = k' /\ c <> c_nl) ->
      safe (core E k' ;;; mod_ed skip_completions_hint ;;; ret false) (x, s) (fun _ => J)).
    { intro Hch. eapply safe_seq; [apply Hcore; exact Hch|]. intros u [x1 s1] J1. exact (Hhint _ _ J1). }
    assert (HL : forall A (m : ME A), safe (lift m) (x, s) (fun _ => J) -> forall B (r : A -> MK K B),
        (forall a y, J y -> safe (r a) y (fun _ => J)) -> safe (bind (lift m) r) (x, s) (fun _ => J)).
    { intros A m M1 B r Hr. eapply safe_seq; [exact M1|]. exact Hr. }
    eapply safe_seq with (R := fun _ => J); [|intros d y J1; destruct (e_wok E); [exact J1|exact I]].
    destruct k' as [c|c|c| | | | | | | | | | |n] eqn:Ek'; try (apply Hoth; intros; discriminate).
    - assert (Ek : k = KChar c) by (unfold k' in Ek'; destruct k; try discriminate; [congruence|destruct (is_char c0 "h"); discriminate]).
      rewrite Ek in Hk. cbn [ok_key] in Hk. destruct (N.eqb_spec c c_tab) as [->|Ht].
      { apply HL; [apply Htab; exact Ek|]. intros a y J1. exact J1. }
      destruct (N.eqb_spec c c_nl) as [->|Hn]; [exact (Hnl Ek)|].
      apply Hoth. intros c' Ec. injection Ec as <-. destruct Hk as [K1|[K1|K1]]; [congruence|congruence|]. split; [exact K1|split; [exact Ek|exact Hn]].
    - assert (Ek : k = KCtrl c) by (unfold k' in Ek'; destruct k; try discriminate; destruct (is_char c0 "h"); [discriminate|congruence]).
      rewrite Ek in Hk. cbn [ok_key] in Hk.
      destruct (is_char c "c"). { eapply safe_seq; [exact Hint|]. intros; exact I. }
      destruct (is_char c "d" && buf_is_empty b). { eapply safe_seq; [exact Hint|]. intros; exact I. }
      destruct (is_char c "f" && showing_autosuggestion s) eqn:Ef.
      { apply andb_true_iff in Ef as [Ec Ef]. apply N.eqb_eq in Ec. apply HL; [apply Hacc; [right; rewrite Ek, Ec; reflexivity|exact Ef]|]. intros a y J1. exact J1. }
      destruct (is_char c "r") eqn:Er.
      { apply N.eqb_eq in Er. assert (Hsr : srch = true) by (destruct Hk as [K1|[K1 _]]; [exact K1|contradiction]).
        apply HL; [apply Hsearch; [left; rewrite Ek, Er; reflexivity|exact Hsr]|]. intros a y J1. exact J1. }
      destruct (is_char c "s") eqn:Ess.
      { apply N.eqb_eq in Ess. assert (Hsr : srch = true) by (destruct Hk as [K1|[_ K1]]; [exact K1|contradiction]).
        apply HL; [apply Hsearch; [right; rewrite Ek, Ess; reflexivity|exact Hsr]|]. intros a y J1. exact J1. }
      apply Hoth. intros; discriminate.
    - assert (Ek : k = KRight) by (unfold k' in Ek'; destruct k; try discriminate; [destruct (is_char c "h"); discriminate|reflexivity]).
      destruct (showing_autosuggestion s) eqn:Esh; [|apply Hoth; intros; discriminate].
      apply safe_bind. unfold safe at 1, wp at 1.
      assert (Hv : exists v, cursor_is_at_end_of_line s = Val v).
      { unfold cursor_is_at_end_of_line. rewrite Hb. cbn [rbind]. destruct (ed_noeol s) eqn:En; [|eauto].
        specialize (Hright Ek b eq_refl Hb eq_refl). unfold num_chars. rewrite sub_chk_le; [cbn [rbind]; eauto|].
        destruct (data b); [congruence|cbn [length]; lia]. }
      destruct Hv as [v ->]. destruct v; [|apply Hoth; intros; discriminate].
      apply HL; [apply Hacc; [left; exact Ek|reflexivity]|]. intros a y J1. exact J1.
  Qed.
  Lemma handle_key_safe : forall {K} (core : env -> key -> MK K unit) (J : K * ed -> Prop) E k x s,
    ok_env ascii flat srch E -> ok_key ascii flat srch k ->
    (forall x s, J (x, s) -> F s) -> (forall x s, J (x, s) -> J (x, set_hint None s)) ->
    (forall A (m : ME A) x s, J (x, s) -> safe m s (fun _ => F) -> keeps frame m -> preserves m ->
       safe (lift m) (x, s) (fun _ => J)) ->
    (forall k x s, (forall c, k = KChar c -> okc c) -> J (x, s) -> safe (core E k) (x, s) (fun _ => J)) ->
    (k = KRight -> forall b, showing_autosuggestion s = true -> cur_buf s = Val b -> ed_noeol s = true -> data b <> []) ->
    J (x, s) -> safe (handle_key core E k) (x, s) (fun _ => J).
  Proof.
    intros K core J E k x s HE Hk HJF Hhint Hlift Hcore Hright HJ. pose proof (HJF _ _ HJ) as HF. pose proof HF as [H [Hc Hs]].
    apply handle_key_at; auto.
    - intros _. apply Hlift; [exact HJ|apply newline_safe; assumption|apply keeps_newline|pres].
    - eapply safe_mono; [apply Hlift; [exact HJ|apply newline_safe; assumption|apply keeps_newline|pres]|]. intros; exact I.
    - intros _ _. apply Hlift; [exact HJ|apply (accept_safe ascii flat srch lay Hfits E HE); assumption|apply keeps_accept|pres].
    - intros _. apply Hlift; [exact HJ|apply complete_safe; assumption|apply keeps_complete|pres].
    - intros _ Hsr fw. apply Hlift; [exact HJ|apply (search_safe ascii flat srch lay Hfits E HE); assumption|apply keeps_search|pres].
    - intros k' Hch. apply Hcore; [|exact HJ]. intros c Ec. apply (Hch c Ec).
  Qed.

  (** * Emacs sessions *)
  Definition EI (x : emacs * ed) : Prop := KI x /\ eolI x.
  Lemma emacs_key_safe : lay = false -> forall E k x s, ok_env ascii flat srch E -> ok_key ascii flat srch k -> EI (x, s) ->
    safe (emacs_key E k) (x, s) (fun _ => EI).
  Proof.
    intros Hlay E k x s HE Hk HI. apply handle_key_safe; auto.
    - intros y t [[K _] _]. exact K.
    - intros y t [[K1 K2] K3]. split; [|exact K3]. split; [apply F_hint; exact K1|exact K2].
    - intros A m y t [K1 K2] Hm Hf Hp.
      pose proof (klift' m y t K1 Hm Hf) as W.
      pose proof (kpres_lift m eolI eolI_local Hp (y, t) K2) as W2.
      pose proof (wp_and _ _ _ _ _ _ _ _ W W2) as W3. eapply wp_mono; [exact W3|auto|auto|]. intros p [Q _]. exact Q.
    - intros k0 y t Hc [K1 K2]. pose proof (emacs_core_safe E HE Hlay k0 y t Hc K1) as W.
      pose proof (kpres_emacs_core E k0 (y, t) K2) as W2.
      pose proof (wp_and _ _ _ _ _ _ _ _ W W2) as W3. eapply wp_mono; [exact W3|auto|auto|]. intros p [Q _]. exact Q.
    - intros _ b _ _ Hn. destruct HI as [_ [_ K]]. cbn [snd] in K. congruence.
  Qed.
  Lemma emacs_run_safe : lay = false -> forall keys x s, Forall (fun ek => ok_env ascii flat srch (fst ek) /\ ok_key ascii flat srch (snd ek)) keys ->
    EI (x, s) -> safe (run_keys emacs_core keys) (x, s) (fun _ => EI).
  Proof.
    intro Hlay. induction keys as [|[E k] keys IH]; intros x s Hk HI; cbn [run_keys]; [exact HI|]. inversion Hk as [|? ? [K1 K2] K3]; subst.
    cbn [fst snd] in *. eapply safe_seq; [apply emacs_key_safe; assumption|]. intros d [x1 s1] J. destruct d; [exact J|apply IH; assumption].
  Qed.
  (** Starting *)
  Lemma editor_new_safe : forall E p f ib h w cb ttys, ok_env ascii flat srch E -> h_share h = false ->
    Forall okt (texts h) -> okt (data ib) -> actions ib = [] -> undone ib = [] -> e_ttywidth E <> Some 0 ->
    (srch = true -> pr_vi p = None) ->
    match editor_new E p f ib h w cb ttys with ORet _ s => F s /\ ed_history s = h | OErr _ _ => True | OPanic q => q = PU16 | OFuel => True end.
  Proof.
    intros E p f ib h w cb ttys HE Hsh Hh Hd Ha Hu Htw Hp.
    assert (HG : forall c tcl ttys', G (mkEd (mkPrompt (handle_prompt (pr_prompt p)) (pr_vi p)) f c ib buf_new false None tcl
                 None true false false false false [] None None false h w cb ttys')).
    { intros c tcl ttys'. constructor; cbn; auto; try (intros; discriminate).
      - destruct ib as [d a u]. cbn in *. subst. apply (bufok_of _ _ _ d Hd).
      - apply (bufok_of _ _ _ []). constructor. }
    unfold editor_new. set (s0 := mkEd _ _ _ _ _ _ _ _ _ _ _ _ _ _ _ _ _ _ _ _ _ _). cbv zeta.
    assert (HS : safe (if negb (e_wok E) then fail EOther
     else
     n <- liftr (sub_chk (match e_ttywidth E with Some n => n | None => 80 end) 1) ;;
     tty_write E (init_toks n (pr_prompt p)) ;;;
     when (negb (buf_is_empty ib)) (move_cursor_to_end_of_line E) ;;;
     display E) s0 (fun _ s => F s /\ frame s0 s)).
    { destruct (e_wok E) eqn:Ew; cbn [negb]; [|exact I]. apply safe_bind. eapply safe_liftr.
      { apply sub_chk_le. destruct (e_ttywidth E) as [[|n]|]; [congruence|lia|lia]. }
      match goal with |- safe ?m _ _ => assert (Hk : keeps frame m) end.
      { kp. }
      apply safe_frame; [|exact Hk]. apply safe_bind. unfold safe at 1, wp at 1, tty_write. rewrite Ew.
      eapply safe_seq with (R := fun _ => G); [|intros u s' K; apply (display_safe ascii flat srch lay Hfits E HE); exact K].
      apply wp_when; intro Hw.
      - eapply safe_mono; [apply (move_end_safe ascii flat srch lay Hfits E HE); apply HG|]. intros u s' K. apply K.
      - apply HG. }
    unfold safe, wp in HS. destruct (_ s0) as [u s|e s|q|]; auto. destruct HS as [K1 K2]. split; [exact K1|].
    rewrite (fr_history _ _ K2); [reflexivity|exact Hsh].
  Qed.
  Lemma emacs_session_lay : lay = false -> forall E p f ib h w cb ttys keys q,
    ok_env ascii flat srch E -> Forall (fun ek => ok_env ascii flat srch (fst ek) /\ ok_key ascii flat srch (snd ek)) keys ->
    h_share h = false -> Forall okt (texts h) -> okt (data ib) -> actions ib = [] -> undone ib = [] -> e_ttywidth E <> Some 0 ->
    (srch = true -> pr_vi p = None) ->
    emacs_read_line E p f ib h w cb ttys keys = OPanic q -> q = PU16.
  Proof.
    intros Hlay E p f ib h w cb ttys keys q HE Hk Hsh Hh Hd Ha Hu Htw Hp H. unfold emacs_read_line, read_line in H.
    pose proof (editor_new_safe E p f ib h w cb ttys HE Hsh Hh Hd Ha Hu Htw Hp) as HN.
    destruct (editor_new E p f ib h w cb ttys) as [[] s|e s|q'|] eqn:En; try discriminate; [|congruence].
    destruct HN as [HF Eh]. destruct (editor_new_curok _ _ _ _ _ _ _ _ _ En) as [Hc1 Hc2].
    match type of H with ?m ?st = _ => assert (HS : safe m st (fun _ _ => True)) end.
    { apply safe_bind, wp_ret. eapply safe_seq; [apply emacs_run_safe; [exact Hlay|exact Hk|]|].
      - split; [split; [exact HF|cbn; intros; discriminate]|split; [exact Hc1|exact Hc2]].
      - intros d [x1 s1] [[[K _] _] _]. cbn [snd] in K. apply safe_bind.
        change (safe gete (x1, s1)) with (fun Q : ed -> emacs * ed -> Prop => Q s1 (x1, s1)). cbv beta.
        destruct (cur_safe _ _ _ _ s1 K) as [b [Hb _]]. eapply safe_liftr; [unfold ed_result; rewrite Hb; reflexivity|exact I]. }
    exact (wp_pan_of _ _ _ _ (fun p => p = PU16) q HS H).
  Qed.
End Safe.

Definition emacs_session_safe ascii flat srch Hfits := emacs_session_lay ascii flat srch false Hfits eq_refl.
