(** Proofs about whole sessions (C23, C28) assembled from the per-key lemmas. *)
From Verif Require Import Base BufferModel HistoryModel EditorState EditorModel KeymapModel ViModel
  MonadLemmas EditorLemmas CursorProofs Lemmas BufferSpec EditorSpec ErrorProofs EditorProofs
  SearchProofs.
Local Open Scope monad_scope.

Lemma new_history : forall E p f ib h w cb ttys s,
  editor_new E p f ib h w cb ttys = ORet tt s -> h_share h = false -> ed_history s = h /\ ed_fs s = w.
Proof.
  intros E p f ib h w cb ttys s H Hsh. unfold editor_new in H. cbv zeta in H.
  destruct (negb (e_wok E)); [discriminate|].
  match type of H with ?m ?s0 = _ =>
    assert (K : keeps frame m);
    [|specialize (K s0); rewrite H in K; split; [exact (fr_history _ _ K Hsh)|exact (fr_fs _ _ K)]] end.
  pose proof (keeps_move_end E). kp.
Qed.

Lemma emacs_history : forall E p f ib h w cb ttys s keys,
  editor_new E p f ib h w cb ttys = ORet tt s -> h_share h = false ->
  match run_keys emacs_core keys (emacs_new, s) with
  | ORet _ (_, s') | OErr _ (_, s') => ed_history s' = h /\ ed_fs s' = w
  | _ => True
  end.
Proof.
  intros E p f ib h w cb ttys s keys H Hsh. destruct (new_history _ _ _ _ _ _ _ _ _ H Hsh) as [N1 N2].
  pose proof (keeps_run_keys emacs_core keys keeps_emacs_core (emacs_new, s)) as K.
  destruct (run_keys emacs_core keys (emacs_new, s)) as [d [k s']|e [k s']| |]; auto;
    (unfold kframe in K; cbn [snd] in K;
     split; [rewrite (fr_history _ _ K); [exact N1|congruence]|rewrite (fr_fs _ _ K); exact N2]).
Qed.

Lemma vi_history : forall E p f ib h w cb ttys s keys,
  editor_new E p f ib h w cb ttys = ORet tt s -> h_share h = false ->
  match (vi_init E ;;; run_keys vi_core keys) (vi_new, s) with
  | ORet _ (_, s') | OErr _ (_, s') => ed_history s' = h /\ ed_fs s' = w
  | _ => True
  end.
Proof.
  intros E p f ib h w cb ttys s keys H Hsh. destruct (new_history _ _ _ _ _ _ _ _ _ H Hsh) as [N1 N2].
  assert (K0 : keeps kframe (vi_init E ;;; run_keys vi_core keys)).
  { apply (keeps_bind _ kframe_trans); [unfold vi_init; pose proof (keeps_set_editor_mode E); kpk|].
    intro. apply keeps_run_keys. exact keeps_vi_core. }
  specialize (K0 (vi_new, s)).
  destruct ((vi_init E ;;; run_keys vi_core keys) (vi_new, s)) as [d [k s']|e [k s']| |]; auto;
    (unfold kframe in K0; cbn [snd] in K0;
     split; [rewrite (fr_history _ _ K0); [exact N1|congruence]|rewrite (fr_fs _ _ K0); exact N2]).
Qed.

(** Nothing after Ctrl-C is read: a session containing it finishes earlier or not at all. *)
Lemma run_keys_ctrl_c : forall {K} (core : env -> key -> MK K unit) l E l' x d y,
  run_keys core (l ++ (E, KCtrl (ch "c")) :: l') x = ORet d y -> run_keys core l x = ORet true y.
Proof.
  intros K core l. induction l as [|[E0 k0] l IH]; intros E l' x d y H; cbn [app run_keys] in *.
  - unfold bind in H. pose proof (ctrl_c core E x) as C.
    destruct (handle_key core E (KCtrl (ch "c")) x); [contradiction|discriminate..].
  - unfold bind in *. destruct (handle_key core E0 k0 x) as [[|] x0| | |]; try discriminate.
    + unfold ret in *. injection H as _ <-. reflexivity.
    + eapply IH. exact H.
Qed.

(** Enter during a search, as a key. *)
Lemma enter_search_key : forall {K} (core : env -> key -> MK K unit) E x s b g d x' s',
  is_search s = true -> ed_showauto s = true -> cur_buf s = Val b -> ed_sugg s = Some g ->
  handle_key core E (KChar c_nl) (x, s) = ORet d (x', s') ->
  x' = x /\
  (d = true <-> ed_hint s = None /\
     ~ after_backslash (data g) (clamp_cursor (ed_noeol s) (length (data g)) (length (data g)))) /\
  (d = true -> ed_result s' = Val (data g)).
Proof.
  intros K core E x s b g d x' s' Hs Ha Hb Hg H. destruct (enter_key core E x s b d x' s' Hb H) as [-> H'].
  split; [reflexivity|]. exact (enter_search E s b g d s' Hs Ha Hb Hg H').
Qed.

Lemma enter_plain_key : forall {K} (core : env -> key -> MK K unit) E x s b d x' s',
  is_search s = false -> cur_buf s = Val b ->
  handle_key core E (KChar c_nl) (x, s) = ORet d (x', s') ->
  x' = x /\
  (d = true <-> ed_hint s = None /\ ~ after_backslash (data b) (ed_cursor s)) /\
  (d = true -> ed_result s' = Val (data b)) /\
  (d = false -> ed_hint s <> None -> line_is s' (data b) (ed_cursor s) /\ ed_hint s' = None) /\
  (d = false -> ed_hint s = None -> exists a r, data b = a ++ r /\ length a = ed_cursor s /\
     line_is s' (a ++ c_nl :: r)
       (clamp_cursor (ed_noeol s) (S (length (data b))) (S (ed_cursor s)))).
Proof.
  intros K core E x s b d x' s' Hs Hb H. destruct (enter_key core E x s b d x' s' Hb H) as [-> H'].
  split; [reflexivity|]. exact (newline_out E s b d s' Hs Hb H').
Qed.

(** Errors of the two key maps. *)
Lemma emacs_key_err : forall E k x s b e y, cur_buf s = Val b ->
  handle_key emacs_core E k (x, s) = OErr e y -> key_err E k (data b) e.
Proof.
  intros E k x s b e y Hb H.
  pose proof (handle_key_err emacs_core E k x s b (er_emacs_core E) Hb) as K. rewrite H in K. exact K.
Qed.
Lemma vi_key_err : forall E k x s b e y, cur_buf s = Val b ->
  handle_key vi_core E k (x, s) = OErr e y -> key_err E k (data b) e.
Proof.
  intros E k x s b e y Hb H.
  pose proof (handle_key_err vi_core E k x s b (er_vi_core E) Hb) as K. rewrite H in K. exact K.
Qed.
