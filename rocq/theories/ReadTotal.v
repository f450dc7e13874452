(** Emacs sessions on a working terminal come to exactly what ReadSpec.v says (C87). *)
From Verif Require Import Base Utf8 BufferModel UtilModel HistoryModel EditorState EditorModel
  KeymapModel ViModel MonadLemmas EditorLemmas ViEffects HistorySpec UtilSpec ErrorProofs SessionProofs SafeSpec SafeEmacs
  EmacsSpec BookSpec BookProofs ReadSpec ReadProofs.
Local Open Scope monad_scope.

(** * Fuel is not used *)
Lemma nf_lift : forall {K A} (m : ME A), nofuel m -> nofuel (@lift K A m).
Proof. intros K A m H [x s]. unfold lift. specialize (H s). destruct (m s); auto. Qed.
Lemma nf_modk : forall {K} (f : K -> K), nofuel (modk f).
Proof. intros K f [x s]. exact I. Qed.
Lemma nf_getk : forall {K}, nofuel (@getk K).
Proof. intros K [x s]. exact I. Qed.
Lemma nf_gete : forall {K}, nofuel (@gete K).
Proof. intros K [x s]. exact I. Qed.
Lemma nf_mod_ed : forall {K} f, nofuel (@mod_ed K f).
Proof. intros K f [x s]. exact I. Qed.
Lemma nf_fail : forall {S A} e, nofuel (@fail S A e).
Proof. intros S A e s. exact I. Qed.
#[export] Hint Resolve nf_modk nf_getk nf_gete nf_mod_ed nf_fail : nf.
Ltac nfk := repeat (cbv beta zeta; match goal with
  | |- nofuel (lift _) => apply nf_lift
  | |- nofuel (if ?b then _ else _) => destruct b
  | |- nofuel (match ?k with _ => _ end) => destruct k
  | |- _ => nf1
  end).
Lemma nf_revert : forall E, nofuel (ed_revert E).
Proof. intro E. unfold ed_revert, undo_like. nfk. Qed.
Lemma nf_move_word : forall E b, nofuel (emacs_move_word E b).
Proof. intros E b. unfold emacs_move_word. nfk. Qed.
#[export] Hint Resolve nf_revert nf_move_word : nf.
Lemma nf_history_start : forall E, nofuel (move_to_start_of_history E).
Proof. intro E. unfold move_to_start_of_history. nfk. Qed.
Lemma nf_history_end : forall E, nofuel (move_to_end_of_history E).
Proof. intro E. unfold move_to_end_of_history. nfk. Qed.
#[export] Hint Resolve nf_history_start nf_history_end : nf.
Lemma nf_last_arg : forall E, nofuel (handle_last_arg_fetch E).
Proof. intro E. unfold handle_last_arg_fetch. nfk. Qed.
#[export] Hint Resolve nf_last_arg : nf.
Lemma nf_alt : forall E c, nofuel (emacs_alt E c).
Proof. intros E c. unfold emacs_alt. nfk. Qed.
Lemma nf_ctrl : forall E c, nofuel (emacs_ctrl E c).
Proof. intros E c. unfold emacs_ctrl. nfk. Qed.
#[export] Hint Resolve nf_alt nf_ctrl : nf.
Lemma nf_core : forall E k, nofuel (emacs_core E k).
Proof. intros E k. unfold emacs_core. destruct k; nfk. Qed.
#[export] Hint Resolve nf_core : nf.
Lemma nf_handle : forall E k, nofuel (handle_key emacs_core E k).
Proof.
  intros E k. unfold handle_key. apply nf_bind; [auto with nf|intro s]. apply nf_bind.
  - intros [x s1]. destruct (cur_buf s); exact I.
  - intro e. cbv zeta. generalize (match k with KCtrl c => if is_char c "h" then KBackspace else k | _ => k end) as k1. intro k1.
    apply nf_bind; [|intro; nfk]. destruct k1; nfk. intros [x s1]. destruct (cursor_is_at_end_of_line s); exact I.
Qed.
Lemma nf_run : forall l, nofuel (run_keys emacs_core l).
Proof.
  induction l as [|[E k] l IH]; cbn [run_keys]; [apply nf_ret|]. apply nf_bind; [apply nf_handle|].
  intros [|]; [apply nf_ret|exact IH].
Qed.
Lemma nf_new : forall E p f ib h w cb ttys, editor_new E p f ib h w cb ttys <> OFuel.
Proof.
  intros E p f ib h w cb ttys H. unfold editor_new in H. cbv zeta in H. destruct (e_wok E); [|discriminate].
  cbn [negb] in H. set (s0 := mkEd _ _ _ _ _ _ _ _ _ _ _ _ _ _ _ _ _ _ _ _ _ _) in H.
  match type of H with ?m s0 = _ => assert (K : nofuel m) by nfk end.
  specialize (K s0). rewrite H in K. exact K.
Qed.

(** * Errors *)
Lemma new_other : forall E p f ib h w cb ttys e s, editor_new E p f ib h w cb ttys = OErr e s -> ~ tty_ok E.
Proof.
  intros E p f ib h w cb ttys e s H [T1 T2]. unfold editor_new in H. cbv zeta in H. rewrite T1 in H.
  cbn [negb] in H. set (s0 := mkEd _ _ _ _ _ _ _ _ _ _ _ _ _ _ _ _ _ _ _ _ _ _) in H.
  match type of H with ?m s0 = _ => assert (K : errs (ttyerr E) m) end.
  { apply errs_bind; [apply errs_liftr|intro n]. apply errs_bind; [auto with er|intro].
    apply errs_bind; [|intro; auto with er]. unfold when. destruct (negb _); [apply er_move_end|apply errs_ret]. }
  specialize (K s0). rewrite H in K. destruct K as [_ K]. apply K. split; assumption.
Qed.
Lemma run_errs : forall l x s e y, Forall (fun y => tty_ok (fst y)) l -> run_keys emacs_core l (x, s) = OErr e y ->
  e <> EOther.
Proof.
  induction l as [|[E k] l IH]; intros x s e y Hl H; cbn [run_keys] in H; [discriminate|]. unfold bind in H.
  pose proof (Forall_inv Hl) as T. cbn [fst] in T.
  destruct (handle_key emacs_core E k (x, s)) as [d [x1 s1]|e1 y1| |] eqn:Eh; try discriminate.
  - destruct d; [discriminate|]. exact (IH x1 s1 e y (Forall_inv_tail Hl) H).
  - injection H as -> ->. assert (C : exists b, cur_buf s = Val b).
    { unfold handle_key, bind at 1 in Eh. cbn [gete] in Eh. unfold bind at 1 in Eh. destruct (cur_buf s); [eauto|discriminate]. }
    destruct C as [b Hb]. destruct (SessionProofs.emacs_key_err E k x s b e y Hb Eh) as [[_ K]|[[_ ->]|[_ [_ ->]]]]; try discriminate.
    contradiction.
Qed.

Theorem emacs_read_exact : forall ascii flat, ascii = true \/ flat = true ->
  forall words E p f ib h w cb ttys l,
  ok_env ascii flat false E -> tty_ok E ->
  Forall (fun y => readable (snd y) /\ e_words (fst y) = words /\ tty_ok (fst y) /\
    ok_env ascii flat false (fst y) /\ ok_key ascii flat false (snd y)) l ->
  (forall t, increasing (words t)) -> h_share h = false -> Forall (ok_text ascii flat false) (texts h) ->
  ok_text ascii flat false (data ib) -> actions ib = [] -> undone ib = [] -> e_ttywidth E <> Some 0 ->
  let r := read words (texts h) (map snd l) (mkBook (mkZ (data ib) [] []) [[]] None) in
  match emacs_read_line E p f ib h w cb ttys l with
  | ORet t (_, s) => r = Line t /\ ed_history s = h
  | OErr e _ => match e with EInterrupted => r = Interrupted | EUnexpectedEof => r = Eof | EOther => False end
  | OPanic q => q = PU16
  | OFuel => False
  end.
Proof.
  intros ascii flat Haf words E p f ib h w cb ttys l HE HT Hl Hw Hsh Hh Hd Ha Hu Htw r.
  assert (Hl1 : Forall (fun y => readable (snd y) /\ e_words (fst y) = words) l) by (eapply Forall_impl; [|exact Hl]; cbv beta; tauto).
  assert (Hl2 : Forall (fun ek => ok_env ascii flat false (fst ek) /\ ok_key ascii flat false (snd ek)) l) by (eapply Forall_impl; [|exact Hl]; cbv beta; tauto).
  assert (Hl3 : Forall (fun y : env * key => tty_ok (fst y)) l) by (eapply Forall_impl; [|exact Hl]; cbv beta; tauto).
  pose proof (emacs_reads words E p f ib h w cb ttys l Hw Hsh Ha Hl1) as K. cbv zeta in K. fold r in K.
  destruct (emacs_read_line E p f ib h w cb ttys l) as [t [x s]|e y|q|] eqn:Er.
  - exact K.
  - destruct e; [exact K|exact K|]. unfold emacs_read_line, read_line in Er.
    destruct (editor_new E p f ib h w cb ttys) as [[] s|e s| |] eqn:En; try discriminate.
    + unfold bind, ret in Er. destruct (run_keys emacs_core l (emacs_new, s)) as [d [x s1]|e1 y1| |] eqn:Ek; try discriminate.
      * cbn [gete] in Er. unfold liftr in Er. destruct (ed_result s1); discriminate.
      * injection Er as -> ->. exact (run_errs l emacs_new s EOther y Hl3 Ek eq_refl).
    + exact (new_other _ _ _ _ _ _ _ _ _ _ En HT).
  - assert (Hf : fits ascii flat false) by (split; [exact Haf|discriminate]).
    exact (emacs_session_safe ascii flat false Hf E p f ib h w cb ttys l q HE Hl2 Hsh Hh Hd Ha Hu Htw ltac:(discriminate) Er).
  - unfold emacs_read_line, read_line in Er.
    destruct (editor_new E p f ib h w cb ttys) as [[] s|e s| |] eqn:En; try discriminate.
    + unfold bind, ret in Er. pose proof (nf_run l (emacs_new, s)) as N.
      destruct (run_keys emacs_core l (emacs_new, s)) as [d [x s1]|e1 y1| |] eqn:Ek; try discriminate; [|exact N].
      cbn [gete] in Er. unfold liftr in Er. destruct (ed_result s1); discriminate.
    + exact (nf_new _ _ _ _ _ _ _ _ En).
Qed.
