(** Alt-< and Alt-> (C89). *)
From Verif Require Import Base BufferModel UtilModel HistoryModel HistorySpec EditorState EditorModel KeymapModel
  MonadLemmas EditorLemmas EditorSpec.
Local Open Scope monad_scope.

(** A key that the key map gets *)
Lemma alt_runs : forall E c k s d k' s', handle_key emacs_core E (KAlt c) (k, s) = ORet d (k', s') ->
  exists k1 s1, emacs_core E (KAlt c) (k, s) = ORet tt (k1, s1) /\ d = false /\ k' = k1 /\ s' = skip_completions_hint s1.
Proof.
  intros E c k s d k' s' H. unfold handle_key in H. unfold bind at 1 in H. cbn [gete] in H.
  unfold bind at 1 in H. destruct (cur_buf s) as [b|]; [|discriminate]. cbv beta iota zeta in H.
  unfold bind in H. destruct (emacs_core E (KAlt c) (k, s)) as [[] [k1 s1]| | |]; try discriminate.
  cbn in H. destruct (e_wok E); [|discriminate]. injection H; intros; subst. exists k', s1. auto.
Qed.
Lemma core_start : forall E k s, emacs_core E (KAlt (ch "<")) (k, s) = lift (move_to_start_of_history E) (mkEmacs None, s).
Proof.
  intros E k s. assert (N : is_char (ch "<") "." = false) by reflexivity. assert (R : is_char (ch "<") "<" = true) by reflexivity.
  revert N R. generalize (ch "<") as c. intros c N R. unfold emacs_core, emacs_alt. rewrite N, R. reflexivity.
Qed.
Lemma core_end : forall E k s, emacs_core E (KAlt (ch ">")) (k, s) = lift (move_to_end_of_history E) (mkEmacs None, s).
Proof.
  intros E k s. assert (N : is_char (ch ">") "." = false) by reflexivity. assert (N2 : is_char (ch ">") "<" = false) by reflexivity.
  assert (R : is_char (ch ">") ">" = true) by reflexivity.
  revert N N2 R. generalize (ch ">") as c. intros c N N2 R. unfold emacs_core, emacs_alt. rewrite N, N2, R. reflexivity.
Qed.

Lemma display_at : forall E s b u s', is_search s = false -> ed_noeol s = false -> cur_buf s = Val b ->
  display E s = ORet u s' ->
  cur_buf s' = Val b /\ ed_cursor s' = Nat.min (ed_cursor s) (num_chars b) /\
  ed_new s' = ed_new s /\ ed_history s' = ed_history s /\ ed_loc s' = ed_loc s.
Proof.
  intros E s b u s' Hs Hn Hb H. pose proof (display_out E s) as D. rewrite H in D.
  destruct D as [g [b1 [tcl [cb [tty [_ [Hb1 ->]]]]]]].
  assert (R : refreshed s = s) by (unfold refreshed; rewrite Hs; reflexivity). rewrite R in *.
  rewrite Hb in Hb1. injection Hb1 as <-. split; [exact Hb|]. split; [|repeat split].
  cbn. rewrite Hn. unfold clamp_cursor. cbn [andb]. destruct (Nat.ltb_spec (num_chars b) (ed_cursor s)); lia.
Qed.
Lemma end_at : forall E s b u s', is_search s = false -> ed_noeol s = false -> cur_buf s = Val b ->
  move_cursor_to_end_of_line E s = ORet u s' ->
  cur_buf s' = Val b /\ ed_cursor s' = num_chars b /\
  ed_new s' = ed_new s /\ ed_history s' = ed_history s /\ ed_loc s' = ed_loc s.
Proof.
  intros E s b u s' Hs Hn Hb H. unfold move_cursor_to_end_of_line, bind, get_cur, modify in H. rewrite Hb in H.
  destruct (display_at E (set_cursor (num_chars b) s) b u s' Hs Hn Hb H) as [H1 [H2 H3]]. split; [exact H1|]. split; [|exact H3].
  rewrite H2. cbn. lia.
Qed.

Lemma alt_start : forall E k s d k' s', is_search s = false -> ed_noeol s = false ->
  handle_key emacs_core E (KAlt (ch "<")) (k, s) = ORet d (k', s') ->
  d = false /\ ed_new s' = ed_new s /\ ed_history s' = ed_history s /\
  match texts (ed_history s) with
  | t :: _ => line_is s' t (length t)
  | [] => line_is s' (data (ed_new s)) (Nat.min (ed_cursor s) (length (data (ed_new s))))
  end.
Proof.
  intros E k s d k' s' Hs Hn H. destruct (alt_runs _ _ _ _ _ _ _ H) as [k1 [s1 [H1 [Hd [_ ->]]]]]. rewrite core_start in H1.
  unfold lift in H1. destruct (move_to_start_of_history E s) as [[] s2| | |] eqn:Em; try discriminate. injection H1 as _ <-.
  unfold move_to_start_of_history, bind, modify, get in Em. cbn [ed_history set_hvalid] in Em. unfold hist_is_empty, texts in *.
  destruct (buffers (ed_history s)) as [|b bs] eqn:Eb; cbn [nonempty negb map] in *.
  - destruct (display_at E (set_loc None (set_hvalid false s)) (ed_new s) tt s2 Hs Hn eq_refl Em) as [D1 [D2 [D3 [D4 _]]]].
    split; [exact Hd|]. split; [exact D3|]. split; [exact D4|]. exists (ed_new s). split; [exact D1|]. split; [reflexivity|exact D2].
  - assert (Hb : cur_buf (set_loc (Some 0) (set_hvalid false s)) = Val b).
    { unfold cur_buf. cbn. unfold hist_get. rewrite Eb. reflexivity. }
    destruct (end_at E (set_loc (Some 0) (set_hvalid false s)) b tt s2 Hs Hn Hb Em) as [D1 [D2 [D3 [D4 _]]]].
    split; [exact Hd|]. split; [exact D3|]. split; [exact D4|]. exists b. split; [exact D1|]. split; [reflexivity|exact D2].
Qed.
Lemma alt_end : forall E k s d k' s', is_search s = false -> ed_noeol s = false ->
  handle_key emacs_core E (KAlt (ch ">")) (k, s) = ORet d (k', s') ->
  d = false /\ ed_new s' = ed_new s /\ ed_history s' = ed_history s /\ ed_loc s' = None /\
  let t := data (ed_new s) in
  line_is s' t (match ed_loc s with Some _ => length t | None => Nat.min (ed_cursor s) (length t) end).
Proof.
  intros E k s d k' s' Hs Hn H. destruct (alt_runs _ _ _ _ _ _ _ H) as [k1 [s1 [H1 [Hd [_ ->]]]]]. rewrite core_end in H1.
  unfold lift in H1. destruct (move_to_end_of_history E s) as [[] s2| | |] eqn:Em; try discriminate. injection H1 as _ <-.
  unfold move_to_end_of_history, bind, modify, get in Em. cbn [ed_loc set_hvalid] in Em.
  destruct (ed_loc s) as [i|] eqn:El.
  - destruct (end_at E (set_loc None (set_hvalid false s)) (ed_new s) tt s2 Hs Hn eq_refl Em) as [D1 [D2 [D3 [D4 D5]]]].
    split; [exact Hd|]. split; [exact D3|]. split; [exact D4|]. split; [exact D5|]. exists (ed_new s). split; [exact D1|]. split; [reflexivity|exact D2].
  - assert (Hb : cur_buf (set_hvalid false s) = Val (ed_new s)) by (unfold cur_buf; cbn; rewrite El; reflexivity).
    destruct (display_at E (set_hvalid false s) (ed_new s) tt s2 Hs Hn Hb Em) as [D1 [D2 [D3 [D4 D5]]]].
    split; [exact Hd|]. split; [exact D3|]. split; [exact D4|]. split; [rewrite <- El; exact D5|]. exists (ed_new s). split; [exact D1|]. split; [reflexivity|exact D2].
Qed.
