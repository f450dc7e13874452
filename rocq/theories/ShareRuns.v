(** Proofs for C75: whole sessions over a shared history. *)
From Verif Require Import Base Utf8 BufferModel UtilModel HistoryModel BufferSpec UtilSpec HistorySpec HistoryProofs EditorState EditorModel
  KeymapModel ViModel MonadLemmas EditorLemmas EditorSpec EditorProofs CursorProofs BrowseSpec ViEffects ViModes ViRepeat BrowseProofs WalkSpec WalkProofs
  HistoryFiles ShareSpec ShareProofs.
Local Open Scope monad_scope.

(** * Nothing but reading the file changes the history *)
Lemma load_again : forall w h, snd (load_history w (snd (load_history w h false)) false) = snd (load_history w h false).
Proof.
  intros w h. destruct h as [bu fi mb mf ad ic sh sz ld cp].
  destruct fi as [p|]; [|reflexivity]. unfold load_history at 2 3. cbn [h_file h_fsize].
  unfold load_history_file_test. destruct (fs_open w p) as [bs|] eqn:O.
  - set (h2 := snd (_, _) : history) in *. cbn [snd].
    assert (F : h_file h2 = Some p /\ h_fsize h2 = length bs /\ (length bs = 0 -> buffers h2 = [])).
    { unfold h2. clear h2. cbn [snd]. destruct (Nat.eqb (length bs) 0) eqn:Z; cbn [andb negb]; [|].
      - apply Nat.eqb_eq in Z. destruct bs; [|discriminate]. cbn [length]. destruct (Nat.eqb sz 0) eqn:Z2; cbn [andb].
        + apply Nat.eqb_eq in Z2. subst sz. cbn. auto.
        + destruct sz as [|sz]; [discriminate|]. cbn. unfold hist_truncate, keep_last. cbn. destruct ld; destruct mf; cbn; auto.
      - apply Nat.eqb_neq in Z. destruct (Nat.eqb (length bs) sz); cbn; [tauto|]. destruct ld; cbn; tauto. }
    clearbody h2. destruct F as [F1 [F2 F3]]. unfold load_history. rewrite F1. unfold load_history_file_test. rewrite O, F2, Nat.eqb_refl. cbn [negb].
    destruct (Nat.eqb (length bs) 0) eqn:Z; cbn [andb negb snd].
    + apply Nat.eqb_eq in Z. specialize (F3 Z). destruct h2 as [bu2 ? ? ? ? ? ? ? ? ?]. cbn in *. subst. reflexivity.
    + destruct h2. cbn in *. subst. reflexivity.
  - cbn [snd]. unfold load_history. cbn [h_file]. unfold load_history_file_test. rewrite O. reflexivity.
Qed.

Definition rereads (s s' : ed) : Prop :=
  ed_fs s' = ed_fs s /\ h_share (ed_history s') = h_share (ed_history s) /\
  (ed_history s' = ed_history s \/ h_share (ed_history s) = true /\ ed_history s' = snd (load_history (ed_fs s) (ed_history s) false)).
Lemma load_share : forall w h a, h_share (snd (load_history w h a)) = h_share h.
Proof.
  intros w h a. unfold load_history, load_history_file_test. destruct (h_file h) as [p|]; [|reflexivity].
  destruct (fs_open w p) as [bs|]; [|reflexivity]. cbv zeta. cbn [snd set_fsize h_share].
  destruct (_ && _ && _), (negb (_ =? _)), a; cbn; try reflexivity; destruct (h_loaddup h); reflexivity.
Qed.
Lemma rr_refl : refl rereads. Proof. intro s. repeat split. left. reflexivity. Qed.
Lemma rr_trans : trans rereads.
Proof.
  intros a b c [A1 [A2 A3]] [B1 [B2 B3]]. split; [congruence|]. split; [congruence|].
  destruct A3 as [A3|[A3 A4]], B3 as [B3|[B3 B4]].
  - left. congruence.
  - right. split; [congruence|]. rewrite B4, A1, A3. reflexivity.
  - right. split; [exact A3|]. congruence.
  - right. split; [exact A3|]. rewrite B4, A1, A4. apply load_again.
Qed.
Lemma rr_o : forall s s', ed_history s' = ed_history s -> ed_fresh s' = ed_fresh s -> ed_fs s' = ed_fs s -> rereads s s'.
Proof. intros s s' H _ H2. split; [exact H2|]. rewrite H. auto. Qed.
Lemma rr_f : forall s, rereads s (freshen_history s).
Proof.
  intro s. unfold freshen_history. destruct (h_share (ed_history s)) eqn:Sh; cbn [andb]; [|apply rr_refl].
  destruct (negb (ed_fresh s)); [|apply rr_refl]. split; [reflexivity|]. cbn [set_fresh set_history ed_history].
  split; [apply load_share|]. right. auto.
Qed.
Lemma rr_d : forall s, rereads s (set_fresh false s). Proof. intro s. repeat split. left. reflexivity. Qed.

Definition untouched (s s' : ed) : Prop := ed_history s' = ed_history s /\ ed_fresh s' = ed_fresh s /\ ed_fs s' = ed_fs s.
Lemma un_refl : refl untouched. Proof. intro s. repeat split. Qed.
Lemma un_trans : trans untouched. Proof. intros a b c [A1 [A2 A3]] [B1 [B2 B3]]. repeat split; congruence. Qed.
Lemma un_o : forall s s', ed_history s' = ed_history s -> ed_fresh s' = ed_fresh s -> ed_fs s' = ed_fs s -> untouched s s'.
Proof. intros s s' H1 H2 H3. split; [exact H1|]. split; [exact H2|exact H3]. Qed.
Lemma share_new : forall E p f ib h w cb ttys s, editor_new E p f ib h w cb ttys = ORet tt s ->
  ed_history s = h /\ ed_fs s = w /\ ed_fresh s = false.
Proof.
  intros E p f ib h w cb ttys s H. unfold editor_new in H. destruct (negb (e_wok E)); [discriminate|].
  match type of H with ?m ?s0 = _ => assert (K : keeps untouched m) end.
  { apply (keeps_bind _ un_trans); [intro; destruct (sub_chk _ _); [apply un_refl|exact I]|intro].
    apply (keeps_bind _ un_trans); [apply (ro_tty_write untouched un_o)|intros _].
    apply (keeps_bind _ un_trans).
    - apply (keeps_when _ un_refl). apply (ro_move_end untouched un_refl un_trans un_o).
    - intros _. apply (ro_display untouched un_trans un_o). }
  match type of H with ?m ?s0 = _ => specialize (K s0) end. rewrite H in K. destruct K as [K1 [K2 K3]]. auto.
Qed.
Lemma emacs_files : forall E p f ib h w cb ttys s keys,
  editor_new E p f ib h w cb ttys = ORet tt s ->
  match run_keys emacs_core keys (emacs_new, s) with
  | ORet _ (_, s') | OErr _ (_, s') =>
    ed_fs s' = w /\ (ed_history s' = h \/ h_share h = true /\ ed_history s' = snd (load_history w h false))
  | _ => True
  end.
Proof.
  intros E p f ib h w cb ttys s keys Hn. destruct (share_new _ _ _ _ _ _ _ _ _ Hn) as [<- [<- _]].
  pose proof (ro_run_all rereads rr_refl rr_trans rr_o rr_f rr_d emacs_core keys (fun E k => ro_emacs_all rereads rr_refl rr_trans rr_o rr_f rr_d E k) (emacs_new, s)) as R.
  destruct (run_keys emacs_core keys (emacs_new, s)) as [d [k' s']|e [k' s']| |]; auto; destruct R as [R1 [_ R2]]; split; assumption.
Qed.
Lemma vi_files : forall E p f ib h w cb ttys s keys,
  editor_new E p f ib h w cb ttys = ORet tt s ->
  match (vi_init E ;;; run_keys vi_core keys) (vi_new, s) with
  | ORet _ (_, s') | OErr _ (_, s') =>
    ed_fs s' = w /\ (ed_history s' = h \/ h_share h = true /\ ed_history s' = snd (load_history w h false))
  | _ => True
  end.
Proof.
  intros E p f ib h w cb ttys s keys Hn. destruct (share_new _ _ _ _ _ _ _ _ _ Hn) as [<- [<- _]].
  assert (R : keeps (on_ed rereads) (vi_init E ;;; run_keys vi_core keys)).
  { apply (keeps_bind _ (on_ed_trans _ rr_trans)); [apply (ro_vi_init rereads rr_refl rr_trans rr_o)|intro].
    apply (ro_run_all rereads rr_refl rr_trans rr_o rr_f rr_d). intros. apply (ro_vi_all rereads rr_refl rr_trans rr_o rr_f rr_d). }
  specialize (R (vi_new, s)).
  destruct ((vi_init E ;;; run_keys vi_core keys) (vi_new, s)) as [d [k' s']|e [k' s']| |]; auto; destruct R as [R1 [_ R2]]; split; assumption.
Qed.

(** * Once read, the history stays *)
Definition steady (s s' : ed) : Prop := ed_fresh s = true -> ed_fresh s' = true /\ ed_history s' = ed_history s.
Lemma st_refl : refl steady. Proof. intros s H. auto. Qed.
Lemma st_trans : trans steady.
Proof. intros a b c A B H. destruct (A H) as [A1 A2]. destruct (B A1) as [B1 B2]. split; [exact B1|congruence]. Qed.
Lemma st_o : forall s s', ed_history s' = ed_history s -> ed_fresh s' = ed_fresh s -> ed_fs s' = ed_fs s -> steady s s'.
Proof. intros s s' H1 H2 _ H. split; congruence. Qed.
Lemma st_f : forall s, steady s (freshen_history s).
Proof. intros s H. unfold freshen_history. rewrite H, andb_false_r. auto. Qed.

Lemma is_char_eq : forall c x, is_char c x = true -> c = ch x.
Proof. intros c x H. apply N.eqb_eq. exact H. Qed.
Lemma emacs_key_steady : forall E k x d y, emacs_steady (fst x) k -> handle_key emacs_core E k x = ORet d y -> steady (snd x) (snd y).
Proof.
  intros E k x d y [H1 [H2 H3]] H.
  pose proof (ro_handle steady st_refl st_trans st_o st_f emacs_core E k x (or_introl H3)) as R. rewrite H in R. apply R.
  apply (ro_emacs_core steady st_refl st_trans st_o st_f). left.
  destruct k; try reflexivity; try congruence. destruct (is_char c "h"); [reflexivity|]. cbn [goes_down].
  destruct (is_char c "n") eqn:C; [apply is_char_eq in C; congruence|reflexivity].
Qed.
Lemma vi_core_steady : forall E k n v s, J n v -> vi_steady v k -> after (on_ed steady) (vi_core E (hidden k)) (v, s).
Proof.
  intros E k n v s HJ [Hn Hm]. unfold after. rewrite vi_core_eq. destruct (vi_fuel v) as [|f]; [exact I|]. cbn [vi_core_fuel]. unfold bind at 1. cbn [getk].
  assert (G : forall m : MV unit, keeps (on_ed steady) m -> after (on_ed steady) m (v, s)) by (intros m Hm'; exact (Hm' (v, s))).
  destruct (vmode_of v) eqn:M.
  - assert (Hd : hidden k <> KDown) by (destruct k; cbn; try congruence; destruct (is_char c "h"); discriminate).
    destruct (hidden k) as [ | |c| | | | | | | | | | | ] eqn:Ek; try congruence; try (apply G, (ro_insert_mode steady st_refl st_trans st_o st_f); exact I).
    + destruct (is_char c "[") eqn:B; [|apply G, (ro_insert_mode steady st_refl st_trans st_o st_f); exact B].
      pose proof (ro_esc steady st_refl st_trans st_o st_f f E v s M (j_last _ _ HJ)) as H. unfold vi_insert in *. rewrite B. exact H.
    + apply (ro_esc steady st_refl st_trans st_o st_f); [exact M|exact (j_last _ _ HJ)].
  - destruct Hm as [H1 [H2 H3]]. apply G, (ro_normal steady st_refl st_trans st_o st_f).
    + destruct k; cbn; try reflexivity; try congruence.
      * destruct (is_char c "j") eqn:C; [apply is_char_eq in C; subst; elim H2; reflexivity|reflexivity].
      * destruct (is_char c "h"); reflexivity.
    + destruct k; cbn; try discriminate; try congruence. destruct (is_char c "h"); discriminate.
  - apply G. apply (ro_replace steady st_refl st_trans st_o).
  - apply G. apply (ro_delete steady st_refl st_trans st_o st_f).
  - apply G. apply (ro_to_char steady st_refl st_trans st_o).
  - apply G. apply (ro_g steady st_refl st_trans st_o).
  - exact I.
Qed.
Lemma vi_key_steady : forall E k n v s d y, J n v -> vi_steady v k -> handle_key vi_core E k (v, s) = ORet d y -> steady s (snd y).
Proof.
  intros E k n v s d y HJ Hk H.
  pose proof (ro_handle steady st_refl st_trans st_o st_f vi_core E k (v, s) (or_introl (proj1 Hk))) as R. rewrite H in R. apply R.
  apply (vi_core_steady E k n); assumption.
Qed.
Lemma vi_J_key : forall E k v s d y, (exists n, J n v) -> handle_key vi_core E k (v, s) = ORet d y -> exists n, J n (fst y).
Proof.
  intros E k v s d y [n Hn] H.
  pose proof (vk_handle_key E k v (fun v' => exists n', J n' v') (ex_intro _ n Hn) (vk_vi_core E _ n v Hn) s) as V.
  rewrite H in V. destruct y. exact V.
Qed.

Lemma emacs_run_steady : forall x y, shared_run emacs_core emacs_steady x y -> steady (snd x) (snd y).
Proof.
  intros x y W. induction W as [x|x y z w E k d W IH Hk H]; [apply st_refl|]. eapply st_trans; [exact IH|].
  exact (emacs_key_steady E k (fst y, set_fs w (snd y)) d z Hk H).
Qed.
Lemma vi_run_J : forall P x y, shared_run vi_core P x y -> (exists n, J n (fst x)) -> exists n, J n (fst y).
Proof.
  intros P x y W HJ. induction W as [x|x y z w E k d W IH Hk H]; [exact HJ|]. exact (vi_J_key E k _ _ d z (IH HJ) H).
Qed.
Lemma vi_run_steady : forall x y, shared_run vi_core vi_steady x y -> (exists n, J n (fst x)) -> steady (snd x) (snd y).
Proof.
  intros x y W HJ. induction W as [x|x y z w E k d W IH Hk H]; [apply st_refl|]. eapply st_trans; [exact (IH HJ)|].
  destruct (vi_run_J _ _ _ W HJ) as [n Hn]. exact (vi_key_steady E k n (fst y) (set_fs w (snd y)) d z Hn Hk H).
Qed.

(** * The keys that look at the history read the file first *)
Definition has_read (s s' : ed) : Prop := ed_fresh s' = true /\ ed_history s' = snd (load_history (ed_fs s) (ed_history s) false).
Lemma freshen_reads : forall s, h_share (ed_history s) = true -> ed_fresh s = false -> has_read s (freshen_history s).
Proof. intros s H1 H2. unfold freshen_history. rewrite H1, H2. split; reflexivity. Qed.
Lemma read_then : forall s s1 s', has_read s s1 -> steady s1 s' -> has_read s s'.
Proof. intros s s1 s' [H1 H2] H. destruct (H H1) as [H3 H4]. split; [exact H3|congruence]. Qed.
Lemma up_reads : forall E s u s', is_search s = false -> h_share (ed_history s) = true -> ed_fresh s = false -> move_up E s = ORet u s' -> has_read s s'.
Proof.
  intros E s u s' H1 H2 H3 H. pose proof (ro_up_reads steady st_refl st_trans st_o E s H1) as R. rewrite H in R.
  eapply read_then; [|exact R]. exact (freshen_reads (set_hvalid false s) H2 H3).
Qed.
Lemma search_reads : forall E b s u s', is_search s = false -> h_share (ed_history s) = true -> ed_fresh s = false -> search E b s = ORet u s' -> has_read s s'.
Proof.
  intros E b s u s' H1 H2 H3 H. pose proof (ro_search_reads steady st_trans st_o E b s H1) as R. rewrite H in R.
  eapply read_then; [|exact R]. pose proof (freshen_reads s H2 H3) as F. eapply read_then; [exact F|]. apply st_o; reflexivity.
Qed.
Lemma search_key_reads : forall {K} (core : env -> key -> MK K unit) E k kk s d y, In k [KCtrl (ch "r"); KCtrl (ch "s")] ->
  is_search s = false -> h_share (ed_history s) = true -> ed_fresh s = false -> handle_key core E k (kk, s) = ORet d y -> has_read s (snd y).
Proof.
  intros K core E k kk s d y Hk H1 H2 H3 H. unfold handle_key, bind at 1 in H. cbn [gete] in H.
  unfold bind at 1 in H. destruct (cur_buf s) as [b|] eqn:Hb; [|discriminate]. cbv beta iota zeta in H.
  assert (F : forall fwd, (done <- (lift (search E fwd) ;;; ret false) ;; if e_wok E then ret done else fail EOther) (kk, s) = ORet d y -> has_read s (snd y)).
  { intros fwd Hq. unfold bind, lift in Hq. destruct (search E fwd s) as [u s1| | |] eqn:Es; try discriminate. cbn in Hq.
    destruct (e_wok E); [|discriminate]. injection Hq as _ <-. exact (search_reads E fwd s u s1 H1 H2 H3 Es). }
  destruct Hk as [<-|[<-|[]]]; [exact (F false H)|exact (F true H)].
Qed.
Lemma emacs_key_reads : forall E k kk s d y, emacs_looks k ->
  is_search s = false -> h_share (ed_history s) = true -> ed_fresh s = false -> handle_key emacs_core E k (kk, s) = ORet d y -> has_read s (snd y).
Proof.
  intros E k kk s d y Hk H1 H2 H3 H. unfold emacs_looks in Hk. cbn [In] in Hk.
  destruct Hk as [Hk|[Hk|Hk]]; [| |apply (search_key_reads emacs_core E k kk s d y); cbn [In]; assumption].
  all: assert (N : emacs_nav kk k = Some true) by (subst k; reflexivity).
  all: assert (W : walks k) by (subst k; cbn; auto).
  all: destruct (walks_handle _ _ _ _ _ _ W H) as [_ [z [Hz ->]]]; destruct (emacs_nav_core _ _ _ _ _ N Hz) as [_ M].
  all: exact (up_reads E s tt (snd z) H1 H2 H3 M).
Qed.
Lemma vi_key_reads : forall E k v s d y, vi_looks v k ->
  is_search s = false -> h_share (ed_history s) = true -> ed_fresh s = false -> handle_key vi_core E k (v, s) = ORet d y -> has_read s (snd y).
Proof.
  intros E k v s d y Hk H1 H2 H3 H. destruct Hk as [Hk|Hk]; [exact (search_key_reads vi_core E k v s d y Hk H1 H2 H3 H)|].
  assert (W : walks k).
  { destruct Hk as [[_ Hk]|[_ ->]]; [|exact I]. cbn in Hk. destruct Hk as [<-|[<-|[]]]; cbn; auto. split; discriminate. }
  assert (Cb : exists b, cur_buf s = Val b).
  { unfold handle_key, bind at 1 in H. cbn [gete] in H. unfold bind at 1 in H. destruct (cur_buf s) as [b|]; [eauto|discriminate]. }
  destruct Cb as [b Cb].
  destruct (walks_handle _ _ _ _ _ _ W H) as [_ [z [Hz ->]]]. cbn [snd].
  cut (has_read s (snd z)); [intro C; exact C|].
  rewrite vi_core_eq in Hz. destruct (vi_fuel v) as [|f]; [discriminate|]. cbn [vi_core_fuel] in Hz. unfold bind at 1 in Hz. cbn [getk] in Hz.
  unfold vmode_of in Hz. destruct Hk as [[Hst Hk]|[Hst ->]]; rewrite Hst in Hz.
  - assert (G : (lift (move_up E) ;;; pop_mode_after_movement E Exclusive) (v, s) = ORet tt z).
    { cbn in Hk. destruct Hk as [<-|[<-|[]]]; exact Hz. }
    clear Hz. unfold bind, lift in G. destruct (move_up E s) as [u s1| | |] eqn:M; try discriminate.
    pose proof (ro_pop_movement steady st_refl st_trans st_o E Exclusive (v, s1)) as R. rewrite G in R.
    exact (read_then _ _ _ (up_reads E s u s1 H1 H2 H3 M) R).
  - assert (G : (modk (fun v => vset_reset true (vset_count 0 v)) ;;; buf_mut end_undo_group ;;;
                 lift (move_up E) ;;; buf_mut start_undo_group) (v, s) = ORet tt z) by exact Hz.
    clear Hz. unfold bind at 1 in G. cbn [modk] in G. set (v1 := vset_reset true (vset_count 0 v)) in *.
    unfold bind at 1 in G. destruct (buf_mut end_undo_group (v1, s)) as [u1 [v2 s1]| | |] eqn:B; try discriminate.
    pose proof (ro_buf_mut untouched un_refl un_trans un_o end_undo_group (v1, s)) as R1. rewrite B in R1. destruct R1 as [R1 [R2 R3]]. cbn [snd] in *.
    assert (R4 : is_search s1 = is_search s).
    { unfold buf_mut, lift in B. rewrite (with_cur_mut_eq _ _ _ Cb) in B. cbn [pure_op] in B. injection B as _ _ <-. apply store_search. }
    unfold bind at 1, lift at 1 in G. destruct (move_up E s1) as [u2 s2| | |] eqn:M; try discriminate.
    pose proof (ro_buf_mut steady st_refl st_trans st_o start_undo_group (v2, s2)) as R5. rewrite G in R5.
    assert (M1 : has_read s1 s2) by (apply (up_reads E s1 u2 s2); congruence).
    pose proof (read_then _ _ _ M1 R5) as M2. unfold has_read in *. rewrite <- R1, <- R3. exact M2.
Qed.

(** * Sessions *)
Lemma shared_fetch : forall w h r, shared_file w h r -> fetched h r (texts (snd (load_history w h false))).
Proof.
  intros w h r [_ [p [bs [H1 [H2 [H3 H4]]]]]].
  destruct (load_history_reads w h p bs r false H1 H2 H3 H4) as [h' [kept [K1 [_ [K2 [K3 K4]]]]]]; [discriminate|].
  rewrite K1. exists kept. split; [exact K2|]. cbn [snd]. destruct (h_loaddup h); auto.
Qed.
Lemma emacs_reads : forall w E k kk s d y0 y r, shared_file w (ed_history s) r -> ed_fresh s = false -> is_search s = false -> emacs_looks k ->
  handle_key emacs_core E k (kk, set_fs w s) = ORet d y0 -> shared_run emacs_core emacs_steady y0 y ->
  fetched (ed_history s) r (texts (ed_history (snd y))).
Proof.
  intros w E k kk s d y0 y r Hf Hr Hs Hk H W.
  destruct (emacs_key_reads E k kk (set_fs w s) d y0 Hk Hs (proj1 Hf) Hr H) as [R1 R2].
  destruct (emacs_run_steady _ _ W R1) as [_ R3]. rewrite R3, R2. exact (shared_fetch w (ed_history s) r Hf).
Qed.
Lemma vi_start_J : forall E s0 x0 P v s, vi_init E (vi_new, s0) = ORet tt x0 -> shared_run vi_core P x0 (v, s) -> exists n, J n v.
Proof.
  intros E s0 x0 P v s Hi W. apply (vi_run_J P x0 (v, s) W).
  assert (Hj : (vi_init E ;;; run_keys vi_core []) (vi_new, s0) = ORet false x0) by (unfold bind; rewrite Hi; reflexivity).
  pose proof (vk_session E [] s0) as V. rewrite Hj in V. destruct x0. exact V.
Qed.
Lemma vi_reads : forall E0 s0 x0 w E k v s d y0 y r, vi_init E0 (vi_new, s0) = ORet tt x0 -> shared_run vi_core any_key x0 (v, s) ->
  shared_file w (ed_history s) r -> ed_fresh s = false -> is_search s = false -> vi_looks v k ->
  handle_key vi_core E k (v, set_fs w s) = ORet d y0 -> shared_run vi_core vi_steady y0 y ->
  fetched (ed_history s) r (texts (ed_history (snd y))).
Proof.
  intros E0 s0 x0 w E k v s d y0 y r Hi Hw Hf Hr Hs Hk H W.
  destruct (vi_key_reads E k v (set_fs w s) d y0 Hk Hs (proj1 Hf) Hr H) as [R1 R2].
  pose proof (vi_J_key _ _ _ _ _ _ (vi_start_J _ _ _ _ _ _ Hi Hw) H) as HJ.
  destruct (vi_run_steady _ _ W HJ R1) as [_ R3]. rewrite R3, R2. exact (shared_fetch w (ed_history s) r Hf).
Qed.

Lemma shared_kpres : forall {K} (core : env -> key -> MK K unit) P (I : K * ed -> Prop) x y,
  (forall E k, kpres (handle_key core E k) I) -> (forall kk s w, I (kk, s) -> I (kk, set_fs w s)) -> shared_run core P x y -> I x -> I y.
Proof.
  intros K core P I x y HK Hw W Hx. induction W as [x|x y z w E k d W IH Hk H]; [exact Hx|].
  refine (wp_ret_of _ _ _ _ _ _ _ (HK E k _ _) H). apply Hw. destruct y. apply IH. exact Hx.
Qed.
Lemma read_at : forall w s L, ed_fresh s = false -> h_share (ed_history s) = true -> is_search s = false -> ed_loc s = None -> ed_subloc s = None ->
  let h := snd (load_history w (ed_history s) false) in
  at_ h (data (ed_new s)) L 0 (freshen_history (set_fs w s)).
Proof.
  intros w s L H1 H2 H3 H4 H5. unfold freshen_history. change (ed_history (set_fs w s)) with (ed_history s). change (ed_fresh (set_fs w s)) with (ed_fresh s).
  rewrite H1, H2. cbn [negb andb]. split; [reflexivity|]. split; [exact H3|]. split; [reflexivity|]. split; [lia|]. split; [exact H4|]. intros _. exact H5.
Qed.
Lemma min1 : forall (t : text) L, nth (Nat.min (length L) 1) (t :: L) [] = nth 0 L t.
Proof. intros t [|x L]; [reflexivity|]. cbn [length Nat.min nth]. rewrite Nat.min_0_r. reflexivity. Qed.
Lemma emacs_reads_shows : forall E0 pr f ib h w0 cb ttys s0 kk s w E k d y r,
  editor_new E0 pr f ib h w0 cb ttys = ORet tt s0 -> shared_run emacs_core any_key (emacs_new, s0) (kk, s) ->
  shared_file w (ed_history s) r -> ed_fresh s = false -> is_search s = false -> ed_loc s = None -> ed_subloc s = None ->
  In k [KUp; KCtrl (ch "p")] -> handle_key emacs_core E k (kk, set_fs w s) = ORet d y ->
  exists l, fetched (ed_history s) r l /\
    forall L, offered l (data (ed_new s)) L -> let t := nth 0 L (data (ed_new s)) in d = false /\ line_is (snd y) t (length t).
Proof.
  intros E0 pr f ib h w0 cb ttys s0 kk s w E k d y r Hn W Hf Hr Hs Hl Hsl Hk H.
  assert (HE : eolI (kk, s)).
  { eapply (shared_kpres emacs_core any_key eolI); [| |exact W|].
    - intros E1 k0. apply kpres_handle_key; [exact eolI_local|]. intro. apply kpres_emacs_core.
    - intros k0 s1 w1 Q. exact Q.
    - pose proof (editor_new_curok _ _ _ _ _ _ _ _ _ Hn) as C. destruct C; split; assumption. }
  destruct HE as [_ HE]. cbn [snd] in HE.
  eexists. split; [exact (shared_fetch w _ r Hf)|]. intros L HL t.
  assert (N : emacs_nav kk k = Some true) by (cbn in Hk; destruct Hk as [<-|[<-|[]]]; reflexivity).
  destruct (emacs_read _ _ L HL E k (kk, set_fs w s) d y (read_at w s L Hr (proj1 Hf) Hs Hl Hsl) N H) as [Z1 [_ Z2]].
  split; [exact Z1|]. cbn [snd] in Z2. change (ed_noeol (set_fs w s)) with (ed_noeol s) in Z2. rewrite HE in Z2. unfold step, text_at in Z2. rewrite min1 in Z2. exact Z2.
Qed.
Lemma vi_reads_shows : forall E0 pr f ib h w0 cb ttys s0 E1 x0 v s w E k d y r,
  editor_new E0 pr f ib h w0 cb ttys = ORet tt s0 -> vi_init E1 (vi_new, s0) = ORet tt x0 -> shared_run vi_core any_key x0 (v, s) ->
  shared_file w (ed_history s) r -> ed_fresh s = false -> is_search s = false -> ed_loc s = None -> ed_subloc s = None ->
  (v_stack v = [] /\ In k [KUp; kch "k"]) \/ (v_stack v = [MInsert] /\ k = KUp) -> handle_key vi_core E k (v, set_fs w s) = ORet d y ->
  exists l, fetched (ed_history s) r l /\
    forall L, offered l (data (ed_new s)) L -> let t := nth 0 L (data (ed_new s)) in
      d = false /\ line_is (snd y) t (if is_normal (vmode_of v) then length t - 1 else length t).
Proof.
  intros E0 pr f ib h w0 cb ttys s0 E1 x0 v s w E k d y r Hn Hi W Hf Hr Hs Hl Hsl Hk H.
  assert (HE : viI (v, s)).
  { eapply (shared_kpres vi_core any_key viI); [| |exact W|].
    - intros E2 k0. apply kpres_handle_key; [exact viI_local|]. intro. apply kp_vi_core.
    - intros k0 s1 w1 Q. exact Q.
    - pose proof (editor_new_curok _ _ _ _ _ _ _ _ _ Hn) as C.
      assert (C' : viI (vi_new, s0)) by (destruct C; split; assumption).
      exact (wp_ret_of _ _ _ _ _ _ _ (kp_vi_init E1 _ C') Hi). }
  eexists. split; [exact (shared_fetch w _ r Hf)|]. intros L HL t.
  assert (N : WalkSpec.vi_nav v k = Some true).
  { unfold WalkSpec.vi_nav. destruct Hk as [[-> Hk]|[-> ->]]; [|reflexivity]. cbn in Hk. destruct Hk as [<-|[<-|[]]]; reflexivity. }
  assert (HV : viI (v, set_fs w s)) by exact HE.
  destruct (vi_read _ _ L HL E k v (set_fs w s) d y (read_at w s L Hr (proj1 Hf) Hs Hl Hsl) HV N H) as [Z1 [_ Z2]].
  split; [exact Z1|]. unfold step, text_at in Z2. rewrite min1 in Z2. fold t in Z2.
  replace (if is_normal (vmode_of v) then length t - 1 else length t) with (resting v (length t)); [exact Z2|].
  unfold resting, vmode_of. destruct Hk as [[-> _]|[-> _]]; reflexivity.
Qed.

(** * When the file is read again *)
Lemma enter_again : forall {K} (core : env -> key -> MK K unit) E x d y, handle_key core E (KChar c_nl) x = ORet d y -> ed_fresh (snd y) = false.
Proof.
  intros K core E [kk s] d y H. unfold handle_key, bind at 1 in H. cbn [gete] in H.
  unfold bind at 1 in H. destruct (cur_buf s) as [b|] eqn:Hb; [|discriminate]. cbv beta iota zeta in H.
  change (N.eqb c_nl c_tab) with false in H. change (N.eqb c_nl c_nl) with true in H. cbv iota in H.
  unfold bind, lift in H. pose proof (ro_newline_from untouched un_refl un_trans un_o E s) as R. destruct (handle_newline E s) as [u s1| | |]; try discriminate.
  destruct (e_wok E); [|discriminate]. injection H as _ <-. exact (proj1 (proj2 R)).
Qed.
Lemma down_again : forall E k kk s d y, In k [KDown; KCtrl (ch "n")] -> is_search s = false -> data (ed_new s) = [] -> ed_loc s = None ->
  handle_key emacs_core E k (kk, s) = ORet d y -> ed_fresh (snd y) = false.
Proof.
  intros E k kk s d y Hk Hs Hn Hl H.
  assert (N : emacs_nav kk k = Some false) by (cbn in Hk; destruct Hk as [<-|[<-|[]]]; reflexivity).
  assert (W : walks k) by (cbn in Hk; destruct Hk as [<-|[<-|[]]]; cbn; auto).
  destruct (walks_handle _ _ _ _ _ _ W H) as [_ [z [Hz ->]]]. destruct (emacs_nav_core _ _ _ _ _ N Hz) as [_ M]. cbn [snd] in *.
  pose proof (ro_down_from untouched un_refl un_trans un_o E s Hs Hn Hl) as R. rewrite M in R. destruct R as [s1 [R1 [_ [R2 _]]]].
  change (ed_fresh (snd z) = false). congruence.
Qed.
