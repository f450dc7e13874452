(** Ctrl-C and Ctrl-D in sessions that stay clear of the panics of C25 and C26. *)
From Verif Require Import Base BufferModel UtilModel HistoryModel EditorState EditorModel KeymapModel ViModel
  EditorSpec HistorySpec SafeSpec SafeViSpec MonadLemmas EditorLemmas CursorProofs ErrorProofs ViEffects SafeProofs SafeEditor SafeMethods SafeEmacs SafeVi SafeViCore.
Local Open Scope monad_scope.

Definition newline_then {K} (E : env) (e : ioerr) (x : K) (s : ed) : out (K * ed) bool :=
  match handle_newline E s with
  | ORet _ s' => OErr e (x, s')
  | OErr e' s' => OErr e' (x, s')
  | OPanic q => OPanic q
  | OFuel => OFuel
  end.
Lemma ctrl_c_eq : forall {K} (core : env -> key -> MK K unit) E x s b, cur_buf s = Val b ->
  handle_key core E (KCtrl (ch "c")) (x, s) = newline_then E EInterrupted x s.
Proof.
  intros K core E x s b Hb. unfold handle_key, bind at 1 2. cbn [gete]. rewrite Hb.
  change (is_char (ch "c") "h") with false. cbv beta iota zeta. change (is_char (ch "c") "c") with true. cbv iota.
  unfold bind, lift, fail, newline_then. cbv beta iota. destruct (handle_newline E s); reflexivity.
Qed.
Lemma ctrl_d_eq : forall {K} (core : env -> key -> MK K unit) E x s b, cur_buf s = Val b -> data b = [] ->
  handle_key core E (KCtrl (ch "d")) (x, s) = newline_then E EUnexpectedEof x s.
Proof.
  intros K core E x s b Hb Hd. unfold handle_key, bind at 1 2. cbn [gete]. rewrite Hb. unfold buf_is_empty. rewrite Hd.
  change (is_char (ch "d") "h") with false. cbv beta iota zeta. change (is_char (ch "d") "c") with false. cbv beta iota zeta.
  change (is_char (ch "d") "d") with true. cbn [andb negb nonempty]. cbv beta iota.
  unfold bind, lift, fail, newline_then. cbv beta iota. destruct (handle_newline E s); reflexivity.
Qed.

Section Interrupt.
  Variables ascii flat srch : bool.
  Hypothesis Hfits : fits ascii flat srch.

  Lemma newline_ends : forall lay {K} E e (x : K) s, ok_env ascii flat srch E -> F ascii flat srch lay s -> ends E e (newline_then E e x s).
  Proof.
    intros lay K E e x s HE HF. pose proof (er_newline E s) as H. unfold ends, newline_then.
    pose proof (newline_safe ascii flat srch lay Hfits E HE s HF) as N. pose proof (nf_newline E s) as NF.
    unfold safe, wp in N. destruct (handle_newline E s) as [d s'|e' s'|q|]; auto.
  Qed.
  Lemma ctrl_c_ends : forall lay {K} (core : env -> key -> MK K unit) E x s,
    ok_env ascii flat srch E -> F ascii flat srch lay s ->
    ends E EInterrupted (handle_key core E (KCtrl (ch "c")) (x, s)).
  Proof.
    intros lay K core E x s HE HF. destruct (cur_safe _ _ _ _ s (proj1 HF)) as [b [Hb _]].
    rewrite (ctrl_c_eq _ _ _ _ _ Hb). apply (newline_ends lay); assumption.
  Qed.
  Lemma ctrl_d_ends : forall lay {K} (core : env -> key -> MK K unit) E x s,
    ok_env ascii flat srch E -> F ascii flat srch lay s -> (forall b, cur_buf s = Val b -> data b = []) ->
    ends E EUnexpectedEof (handle_key core E (KCtrl (ch "d")) (x, s)).
  Proof.
    intros lay K core E x s HE HF Hd. destruct (cur_safe _ _ _ _ s (proj1 HF)) as [b [Hb _]].
    rewrite (ctrl_d_eq _ _ _ _ _ Hb (Hd b Hb)). apply (newline_ends lay); assumption.
  Qed.

  Lemma emacs_reached : forall E p f ib h w cb ttys s l d k s',
    ok_env ascii flat srch E -> Forall (fun ek => ok_env ascii flat srch (fst ek) /\ ok_key ascii flat srch (snd ek)) l ->
    h_share h = false -> Forall (ok_text ascii flat srch) (texts h) -> ok_text ascii flat srch (data ib) -> actions ib = [] -> undone ib = [] ->
    e_ttywidth E <> Some 0 -> (srch = true -> pr_vi p = None) ->
    editor_new E p f ib h w cb ttys = ORet tt s -> run_keys emacs_core l (emacs_new, s) = ORet d (k, s') -> F ascii flat srch false s'.
  Proof.
    intros E p f ib h w cb ttys s l d k s' HE Hk Hsh Hh Hd Ha Hu Htw Hp En Hr.
    pose proof (editor_new_safe ascii flat srch false Hfits E p f ib h w cb ttys HE Hsh Hh Hd Ha Hu Htw Hp) as HN.
    rewrite En in HN. destruct HN as [HF Eh]. destruct (editor_new_curok _ _ _ _ _ _ _ _ _ En) as [Hc1 Hc2].
    assert (W : safe (run_keys emacs_core l) (emacs_new, s) (fun _ => EI ascii flat srch false)).
    { apply emacs_run_safe; [exact Hfits|reflexivity|exact Hk|]. split; [split; [exact HF|cbn; intros; discriminate]|split; [exact Hc1|exact Hc2]]. }
    unfold safe, wp in W. rewrite Hr in W. destruct W as [[K _] _]. exact K.
  Qed.

  Lemma emacs_interrupt : forall E p f ib h w cb ttys s l d k s' E',
    ok_env ascii flat srch E -> Forall (fun ek => ok_env ascii flat srch (fst ek) /\ ok_key ascii flat srch (snd ek)) l ->
    h_share h = false -> Forall (ok_text ascii flat srch) (texts h) -> ok_text ascii flat srch (data ib) -> actions ib = [] -> undone ib = [] ->
    e_ttywidth E <> Some 0 -> (srch = true -> pr_vi p = None) ->
    editor_new E p f ib h w cb ttys = ORet tt s -> run_keys emacs_core l (emacs_new, s) = ORet d (k, s') -> ok_env ascii flat srch E' ->
    ends E' EInterrupted (handle_key emacs_core E' (KCtrl (ch "c")) (k, s')) /\
    ((forall b, cur_buf s' = Val b -> data b = []) -> ends E' EUnexpectedEof (handle_key emacs_core E' (KCtrl (ch "d")) (k, s'))).
  Proof.
    intros E p f ib h w cb ttys s l d k s' E' H1 H2 H3 H4 H5 H6 H7 H8 H9 H10 H11 H12.
    pose proof (emacs_reached E p f ib h w cb ttys s l d k s' H1 H2 H3 H4 H5 H6 H7 H8 H9 H10 H11) as HF.
    split; [apply (ctrl_c_ends false); assumption|intro; apply (ctrl_d_ends false); assumption].
  Qed.
End Interrupt.

Lemma vi_interrupt : forall ascii flat srch, fits ascii flat srch -> forall E p f ib h w cb ttys s l d v s' E',
  ok_env ascii flat srch E ->
  Forall (fun ek => ok_env ascii flat srch (fst ek) /\ ok_case ascii flat srch (fst ek) /\ ok_key ascii flat srch (snd ek)) l ->
  h_share h = false -> Forall (ok_text ascii flat srch) (texts h) -> ok_text ascii flat srch (data ib) -> actions ib = [] -> undone ib = [] ->
  e_ttywidth E <> Some 0 -> (srch = true -> pr_vi p = None) ->
  (forall s v s', editor_new E p f ib h w cb ttys = ORet tt s -> vi_init E (vi_new, s) = ORet tt (v, s') -> keys_careful l v s') ->
  editor_new E p f ib h w cb ttys = ORet tt s -> (vi_init E ;;; run_keys vi_core l) (vi_new, s) = ORet d (v, s') -> ok_env ascii flat srch E' ->
  ends E' EInterrupted (handle_key vi_core E' (KCtrl (ch "c")) (v, s')) /\
  ((forall b, cur_buf s' = Val b -> data b = []) -> ends E' EUnexpectedEof (handle_key vi_core E' (KCtrl (ch "d")) (v, s'))).
Proof.
  intros ascii flat srch Hfits E p f ib h w cb ttys s l d v s' E' HE Hk Hsh Hh Hd Ha Hu Htw Hpr Hcare En Hr HE'.
  pose proof (vi_start_safe ascii flat srch Hfits E p f ib h w cb ttys s HE Hsh Hh Hd Ha Hu Htw Hpr En) as Hinit.
  unfold bind in Hr. destruct (vi_init E (vi_new, s)) as [[] [v0 s0]| | |] eqn:Ei; try discriminate.
  unfold safe, wp in Hinit. rewrite Ei in Hinit. cbn [fst snd] in Hinit.
  pose proof (vi_run_safe ascii flat srch Hfits l v0 s0 Hk Hinit (Hcare s v0 s0 En Ei)) as W. unfold safe, wp in W. rewrite Hr in W.
  apply VS_F in W. cbn [snd] in W.
  split; [apply (ctrl_c_ends ascii flat srch Hfits true); assumption|intro; apply (ctrl_d_ends ascii flat srch Hfits true); assumption].
Qed.
