(** No panic: the Vi key map. *)
From Verif Require Import Base Utf8 BufferModel UtilModel HistoryModel EditorState EditorModel
  KeymapModel ViModel MonadLemmas EditorLemmas CursorProofs Lemmas BufferSpec BufferProofs TextProofs UtilSpec UtilProofs
  HistorySpec HistoryProofs EditorSpec EditorProofs SuggestProofs TabSpec TabProofs ErrorProofs EditorOps
  ViSpec ViEffects ViModes ViRepeat ViMotion
  SafeSpec SafeProofs SafeEditor SafeMethods SafeEmacs SafeView SafeViSpec.
Local Open Scope monad_scope.

Lemma safe_ok : forall {S A} (m : M S A) s (Q R : A -> S -> Prop), safe m s Q -> ok m s R ->
  safe m s (fun a s' => Q a s' /\ R a s').
Proof. intros S A m s Q R H K. unfold safe, wp, ok in *. destruct (m s); auto. Qed.

Definition sv {A} (m : MV A) (v : vi) (s : ed) (Q : A -> vi -> ed -> Prop) : Prop :=
  safe m (v, s) (fun a y => Q a (fst y) (snd y)).

Section SV.
  Context {A : Type}.
  Implicit Types (Q : A -> vi -> ed -> Prop).
  Lemma sv_mono : forall (m : MV A) v s Q Q', sv m v s Q -> (forall a v' s', Q a v' s' -> Q' a v' s') -> sv m v s Q'.
  Proof. intros m v s Q Q' H K. eapply safe_mono; [exact H|]. intros a [v' s']. apply K. Qed.
  Lemma sv_bind : forall {B} (m : MV B) (k : B -> MV A) v s Q, sv m v s (fun b v' s' => sv (k b) v' s' Q) -> sv (bind m k) v s Q.
  Proof. intros B m k v s Q H. apply safe_bind. eapply safe_mono; [exact H|]. intros b [v' s'] K. exact K. Qed.
  Lemma sv_ret : forall (a : A) v s Q, Q a v s -> sv (ret a) v s Q.
  Proof. intros. exact H. Qed.
  Lemma sv_lift : forall (m : ME A) v s Q, safe m s (fun a s' => Q a v s') -> sv (lift m) v s Q.
  Proof. intros m v s Q H. apply safe_lift. exact H. Qed.
  Lemma sv_getk : forall (k : vi -> MV A) v s Q, sv (k v) v s Q -> sv (bind getk k) v s Q.
  Proof. intros. exact H. Qed.
  Lemma sv_gete : forall (k : ed -> MV A) v s Q, sv (k s) v s Q -> sv (bind gete k) v s Q.
  Proof. intros. exact H. Qed.
  Lemma sv_modk : forall f (k : unit -> MV A) v s Q, sv (k tt) (f v) s Q -> sv (bind (modk f) k) v s Q.
  Proof. intros. exact H. Qed.
  Lemma sv_mod_ed : forall f (k : unit -> MV A) v s Q, sv (k tt) v (f s) Q -> sv (bind (mod_ed f) k) v s Q.
  Proof. intros. exact H. Qed.
  Lemma sv_liftr : forall (r : res A) a v s Q, r = Val a -> Q a v s -> sv (liftr r) v s Q.
  Proof. intros r a v s Q E H. apply (safe_liftr r a); assumption. Qed.
  Lemma sv_vk : forall (m : MV A) v s Q (R : A -> vi -> Prop), sv m v s Q -> vk m v R ->
    sv m v s (fun a v' s' => Q a v' s' /\ R a v').
  Proof.
    intros m v s Q R H K. specialize (K s). unfold sv, safe, wp in *. destruct (m (v, s)) as [a [v' s']| | |]; auto.
  Qed.
End SV.
Lemma sv_seq : forall {A B} (m : MV B) (k : B -> MV A) v s (R : B -> vi -> ed -> Prop) Q,
  sv m v s R -> (forall b v' s', R b v' s' -> sv (k b) v' s' Q) -> sv (bind m k) v s Q.
Proof. intros A B m k v s R Q H K. apply sv_bind. eapply sv_mono; [exact H|exact K]. Qed.
Lemma sv_modk1 : forall f v s (Q : unit -> vi -> ed -> Prop), Q tt (f v) s -> sv (modk f) v s Q.
Proof. intros. exact H. Qed.
Lemma sv_when : forall b (m : MV unit) v s (Q : unit -> vi -> ed -> Prop),
  (b = true -> sv m v s Q) -> (b = false -> Q tt v s) -> sv (when b m) v s Q.
Proof. intros b m v s Q H K. apply wp_when; [exact H|exact K]. Qed.
Lemma sv_mfor : forall {A} (body : A -> MV unit) (I : vi -> ed -> Prop) l v s,
  (forall x v s, In x l -> I v s -> sv (body x) v s (fun _ => I)) -> I v s -> sv (mfor l body) v s (fun _ => I).
Proof.
  intros A body I l. induction l as [|x l IH]; intros v s H K; cbn [mfor]; [exact K|].
  eapply sv_seq; [apply H; [left; reflexivity|exact K]|]. intros ? v' s' K'. apply IH; [|exact K'].
  intros y v1 s1 Hy. apply H. right. exact Hy.
Qed.
Lemma sv_Nloop : forall (body : MV bool) (I : vi -> ed -> Prop) n v s,
  (forall v s, I v s -> sv body v s (fun _ => I)) -> I v s -> sv (Nloop n body) v s (fun _ => I).
Proof.
  intros body I n v s H K. apply (wp_Nloop body (fun y => I (fst y) (snd y))); [|exact K].
  intros [v' s'] K'. apply H. exact K'.
Qed.

(** The backward word motion does not move right. *)
Lemma mw_loop_left : forall U f ws t c st, fst (mw_loop U f ws false t c st) <= c.
Proof.
  intros U f ws t. induction f as [|f IH]; intros c st; cbn [mw_loop]; [cbn [fst]; lia|].
  unfold advance. destruct (c =? 0) eqn:E0; [cbn [fst]; lia|].
  assert (IH' : forall st, fst (mw_loop U f ws false t (c - 1) st) <= c) by (intro st0; specialize (IH (c - 1) st0); lia).
  destruct (nth_error t (c - 1)); [|cbn [fst]; lia].
  destruct st; repeat match goal with |- context [if ?b then _ else _] => destruct b end; auto; cbn [fst]; lia.
Qed.
Lemma move_word_left : forall U ws t n c, repeat_pos n (move_word_once U ws false t) c <= c.
Proof.
  intros U ws t n c. rewrite repeat_iterp. revert c. induction (N.to_nat n) as [|k IH]; intro c; cbn [iterp]; [lia|].
  assert (H : fst (move_word_once U ws false t c) <= c).
  { unfold move_word_once. destruct (nth_error t c); [apply mw_loop_left|cbn [fst]; lia]. }
  destruct (move_word_once U ws false t c) as [c' go]. cbn [fst] in H. destruct go; [|exact H].
  specialize (IH c'). lia.
Qed.

Section Safe.
  Context (ascii flat srch : bool) (Hfits : fits ascii flat srch).
  Notation okt := (ok_text ascii flat srch).
  Notation okc := (ok_char ascii flat srch).
  Notation bufok := (bufok ascii flat srch).
  Notation G := (G ascii flat srch true).
  Notation sug := (sug ascii flat srch).
  Notation F := (F ascii flat srch true).

  Lemma F_lay : forall s, F s -> is_search s = true -> ed_loc s = None.
  Proof. intros s [H _] E. exact (g_lay _ _ _ _ s H eq_refl E). Qed.
  Lemma F_same : forall s s', F s -> ed_history s' = ed_history s -> ed_loc s' = ed_loc s -> ed_subset s' = ed_subset s ->
    ed_subloc s' = ed_subloc s -> ed_new s' = ed_new s -> ed_hist s' = ed_hist s -> ed_hvalid s' = ed_hvalid s ->
    ed_hint s' = ed_hint s -> ed_rev s' = ed_rev s -> ed_fwd s' = ed_fwd s -> ed_cursor s' = ed_cursor s -> ed_sugg s' = ed_sugg s ->
    (pr_vi (ed_prompt s) = None -> pr_vi (ed_prompt s') = None) ->
    F s'.
  Proof.
    intros s s' [[H1 H2 H3 H4 H5 H6 H7 H8 H9 H10 H11] [Hc Hs]] E1 E2 E3 E4 E5 E6 E7 E8 E9 E10 E11 E12 E13.
    assert (Ec : cur_buf s' = cur_buf s) by (unfold cur_buf; rewrite E1, E2, E5, E6, E7; reflexivity).
    split; [|split].
    - constructor; rewrite ?E1, ?E2, ?E3, ?E4, ?E5, ?E6, ?E8, ?E9, ?E10; auto.
    - intros b Hb. rewrite E11. apply Hc. congruence.
    - intros g Hg. rewrite E12 in Hg. destruct (Hs g Hg) as [K1 K2]. split; [exact K1|]. intros Hn b Hb. apply K2; [|congruence].
      unfold is_search in *. congruence.
  Qed.
  Lemma F_noeol : forall e s, F s -> F (set_noeol e s).
  Proof. intros e s H. eapply F_same; [exact H|reflexivity..|auto]. Qed.
  Lemma F_vi_mode : forall m s, F s -> F (set_vi_mode m s).
  Proof. intros m s H. unfold set_vi_mode. destruct (pr_vi (ed_prompt s)) eqn:Ep; [eapply F_same; [exact H|reflexivity..|congruence]|exact H]. Qed.

  (** A sound state whose line is [t], with the cursor at [c]. *)
  Definition L (s : ed) (t : text) (c : nat) (e : bool) : Prop :=
    F s /\ exists b, view s b c e /\ data b = t.
  Lemma L_of : forall s b, F s -> cur_buf s = Val b -> L s (data b) (ed_cursor s) (ed_noeol s).
  Proof.
    intros s b H Hb. split; [exact H|]. exists (opened s b). split; [apply view_of; [apply F_lay; exact H|exact Hb]|].
    apply data_opened.
  Qed.
  Lemma F_line : forall s, F s -> exists b, cur_buf s = Val b /\ L s (data b) (ed_cursor s) (ed_noeol s).
  Proof.
    intros s H. destruct (cur_safe _ _ _ _ s (proj1 H)) as [b [Hb _]]. exists b. split; [exact Hb|]. apply L_of; assumption.
  Qed.
  Lemma L_cur : forall s t c e, L s t c e -> exists b, cur_buf s = Val b /\ data b = t /\ ed_cursor s = c /\ ed_noeol s = e.
  Proof.
    intros s t c e [_ [b [V <-]]]. destruct (view_line _ _ _ _ V) as [b0 [H1 H2]]. destruct V as [_ [_ [V1 V2]]]. exists b0. auto.
  Qed.
  Lemma L_le : forall s t c e, L s t c e -> c <= length t.
  Proof.
    intros s t c e H. destruct (L_cur _ _ _ _ H) as [b [Hb [<- [<- _]]]]. destruct H as [[_ [H _]] _]. apply H. exact Hb.
  Qed.
  Lemma L_noeol : forall e' s t c e, L s t c e -> L (set_noeol e' s) t c e'.
  Proof.
    intros e' s t c e [H [b [V E]]]. split; [apply F_noeol; exact H|]. exists b. split; [eapply view_noeol; exact V|exact E].
  Qed.
  Lemma L_vi_mode : forall m s t c e, L s t c e -> L (set_vi_mode m s) t c e.
  Proof.
    intros m s t c e [H [b [V E]]]. split; [apply F_vi_mode; exact H|]. exists b. split; [|exact E].
    unfold set_vi_mode. destruct (pr_vi (ed_prompt s)); [apply view_prompt; exact V|exact V].
  Qed.
  Lemma L_F : forall s t c e, L s t c e -> F s.
  Proof. intros s t c e [H _]. exact H. Qed.
  Lemma L_safe : forall {A} (m : ME A) s t c e (R : A -> ed -> Prop), L s t c e -> safe m s (fun _ => F) ->
    (forall b, view s b c e -> data b = t -> ok m s R) -> safe m s (fun a s' => F s' /\ R a s').
  Proof. intros A m s t c e R [_ [b [V E]]] H K. apply safe_ok; [exact H|]. apply (K b V E). Qed.

  Lemma clamp_bound : forall e n c, clamp_cursor e n c <= c.
  Proof.
    intros e n c. unfold clamp_cursor. destruct (n <? c) eqn:E1; [apply Nat.ltb_lt in E1|];
    match goal with |- (if ?b then _ else _) <= _ => destruct b end; lia.
  Qed.

  Section Env.
  Context (E : env) (HE : ok_env ascii flat srch E).

  Lemma L_meth : forall {A} (m : ME A) s t c e t' c', L s t c e -> safe m s (fun _ => F) ->
    (forall b, view s b c e -> data b = t -> ok m s (fun _ s' => exists b', view s' b' c' e /\ data b' = t')) ->
    safe m s (fun _ s' => L s' t' c' e).
  Proof.
    intros A m s t c e t' c' H K R. eapply safe_mono; [eapply L_safe; [exact H|exact K|exact R]|].
    cbv beta. intros a s' [K1 K2]. split; assumption.
  Qed.
  Ltac lands := cbv beta; intros ? ? [? _]; eexists; split; [eassumption|].
  Lemma L_display : forall s t c e, L s t c e -> safe (display E) s (fun _ s' => L s' t (clamp_cursor e (length t) c) e).
  Proof.
    intros s t c e H. eapply L_meth; [exact H|apply (display_safe ascii flat srch true Hfits E HE), H|]. intros b V <-.
    eapply ok_mono; [apply (ok_display E _ _ _ _ V)|]. lands. reflexivity.
  Qed.
  Lemma L_start : forall s t c e, L s t c e -> safe (move_cursor_to_start_of_line E) s (fun _ s' => L s' t 0 e).
  Proof.
    intros s t c e H. eapply L_meth; [exact H|apply (move_start_safe ascii flat srch true Hfits E HE), H|]. intros b V <-.
    eapply ok_mono; [apply (ok_move_start E _ _ _ _ V)|]. lands. reflexivity.
  Qed.
  Lemma L_end : forall s t c e, L s t c e -> safe (move_cursor_to_end_of_line E) s
    (fun _ s' => L s' t (clamp_cursor e (length t) (length t)) e).
  Proof.
    intros s t c e H. eapply L_meth; [exact H|apply (move_end_safe ascii flat srch true Hfits E HE), H|]. intros b V <-.
    eapply ok_mono; [apply (ok_move_end E _ _ _ _ V)|]. lands. reflexivity.
  Qed.
  Lemma L_to : forall n s t c e, L s t c e -> safe (move_cursor_to E n) s
    (fun _ s' => L s' t (clamp_cursor e (length t) (Nat.min n (length t))) e).
  Proof.
    intros n s t c e H. eapply L_meth; [exact H|apply (move_to_safe ascii flat srch true Hfits E HE), H|]. intros b V <-.
    eapply ok_mono; [apply (ok_move_to E n _ _ _ _ V)|]. lands. reflexivity.
  Qed.
  Lemma L_left : forall n s t c e, L s t c e -> safe (move_cursor_left E n) s
    (fun _ s' => L s' t (clamp_cursor e (length t) (c - n)) e).
  Proof.
    intros n s t c e H. eapply L_meth; [exact H|apply (left_safe ascii flat srch true Hfits E HE), H|]. intros b V <-.
    eapply ok_mono; [apply (ok_move_left E n _ _ _ _ V)|]. lands. reflexivity.
  Qed.
  Lemma L_right : forall n s t c e, L s t c e -> safe (move_cursor_right E n) s
    (fun _ s' => L s' t (clamp_cursor e (length t) (Nat.min (c + n) (length t))) e).
  Proof.
    intros n s t c e H. eapply L_meth; [exact H|apply (right_safe ascii flat srch true Hfits E HE); apply H|]. intros b V <-.
    eapply ok_mono; [apply (ok_move_right E n _ _ _ _ V)|]. lands. reflexivity.
  Qed.
  Lemma L_insert : forall x s a r c e, L s (a ++ r) c e -> length a = c -> okt x -> safe (insert_chars_after_cursor E x) s
    (fun _ s' => L s' (a ++ x ++ r) (clamp_cursor e (length (a ++ x ++ r)) (length (a ++ x))) e).
  Proof.
    intros x s a r c e H Ha Hx. eapply L_meth; [exact H|apply (insert_chars_safe ascii flat srch true Hfits E HE); [apply H|apply H|exact Hx]|].
    intros b V Hd. eapply ok_mono; [apply (ok_insert E x _ _ _ _ _ _ V Hd Ha)|]. lands. reflexivity.
  Qed.
  Lemma L_delete_after : forall s a x r c e, L s (a ++ x :: r) c e -> length a = c -> safe (delete_after_cursor E) s
    (fun _ s' => L s' (a ++ r) (clamp_cursor e (length (a ++ r)) c) e).
  Proof.
    intros s a x r c e H Ha. eapply L_meth; [exact H|apply (delete_after_safe ascii flat srch true Hfits E HE), H|].
    intros b V Hd. eapply ok_mono; [apply (ok_delete_after E _ _ _ _ V)|]. cbv beta.
    intros _ s' [[Hl _]|[a' [x' [r' [Hd' [Ha' [K _]]]]]]].
    - rewrite Hd, app_length in Hl. cbn [length] in Hl. lia.
    - rewrite Hd in Hd'. cbn [app] in Hd'. assert (a' = a /\ x' :: r' = x :: r) as [-> Hr].
      { apply app_eq_length; [symmetry; exact Hd'|congruence]. }
      injection Hr as -> ->. eexists; split; [exact K|]. reflexivity.
  Qed.

  (** * Mode changes *)
  Lemma sv_set_editor_mode : forall v s t c e (Q : unit -> vi -> ed -> Prop), L s t c e ->
    (forall s' c', L s' t c' e -> c' <= c -> Q tt v s') -> sv (set_editor_mode E) v s Q.
  Proof.
    intros v s t c e Q H K. unfold set_editor_mode. apply sv_getk.
    assert (D : forall m, sv (mod_ed (set_vi_mode m) ;;; lift (display E)) v s Q).
    { intro m. apply sv_mod_ed, sv_lift. eapply safe_mono; [apply L_display, L_vi_mode; exact H|]. cbv beta.
      intros [] s' HL. eapply K; [exact HL|]. apply clamp_bound. }
    destruct (vmode_of v); try apply D; apply sv_ret; eapply K; try exact H; lia.
  Qed.
  (** In a mode that neither shows a status nor redraws *)
  Lemma sv_quiet : forall v s (Q : unit -> vi -> ed -> Prop),
    match vmode_of v with MInsert | MNormal => False | _ => True end -> Q tt v s -> sv (set_editor_mode E) v s Q.
  Proof. intros v s Q H K. unfold set_editor_mode. apply sv_getk. destruct (vmode_of v); try contradiction; exact K. Qed.

  Lemma L_group : forall (f : buffer -> buffer) s t c e, (f = start_undo_group \/ f = end_undo_group) -> L s t c e ->
    safe (with_cur_mut (pure_op f)) s (fun _ s' => L s' t c e).
  Proof.
    intros f s t c e Hf H. destruct (cur_safe _ _ _ _ s (proj1 (proj1 H))) as [b [Hb [_ Ho]]].
    assert (Hok : bufok (f (opened s b)) /\ data (f (opened s b)) = data (opened s b)).
    { destruct Ho as [O1 [O2 [O3 [d0 [d1 [O4 O5]]]]]].
      destruct Hf; subst; (split; [|reflexivity]); (split; [exact O1|]); cbn [start_undo_group end_undo_group actions undone data];
        (split; [constructor; [exact I|exact O2]|]); (split; [exact O3|]); exists d0, d1;
        (split; [econstructor; [exact O4|first [apply astep_start|apply astep_end]]|exact O5]). }
    eapply L_meth; [exact H| |].
    - eapply wcm_safe; [exact Hb|reflexivity|]. cbv beta. eapply F_store; [apply H|exact Hb|apply Hok|].
      rewrite (proj2 Hok). apply data_opened.
    - intros b0 V <-. eapply ok_mono; [apply (ok_mut _ _ _ _ _ V)|]. cbv beta. intros ? s' [b' [Hb' [V' _]]]. exists b'. split; [exact V'|].
      unfold pure_op in Hb'. injection Hb' as _ <-. destruct Hf; subst; reflexivity.
  Qed.

  Lemma sv_group : forall (f : buffer -> buffer) v s t c e (Q : unit -> vi -> ed -> Prop),
    (f = start_undo_group \/ f = end_undo_group) -> L s t c e ->
    (forall s', L s' t c e -> Q tt v s') -> sv (buf_mut f) v s Q.
  Proof.
    intros f v s t c e Q Hf H K. apply sv_lift. eapply safe_mono; [apply L_group; [exact Hf|exact H]|]. intros [] s' H'.
    apply K. exact H'.
  Qed.
  Lemma sv_smpl : forall m v s t c e (Q : unit -> vi -> ed -> Prop), L s t c e -> m <> MNormal ->
    (forall s' c', L s' t c' false -> c' <= c -> Q tt (enter_mode m v) s') -> sv (set_mode_preserve_last E m) v s Q.
  Proof.
    intros m v s t c e Q H Hm K. unfold set_mode_preserve_last. apply sv_mod_ed, sv_modk.
    replace (is_normal m) with false by (destruct m; congruence || reflexivity).
    apply sv_bind. eapply sv_set_editor_mode; [eapply L_noeol; exact H|]. intros s1 c1 H1 Hc1.
    apply sv_when; intros _; [|eapply K; eassumption].
    eapply sv_group; [left; reflexivity|exact H1|]. intros s2 H2. eapply K; eassumption.
  Qed.
  Lemma sv_set_mode : forall m v s t c e (Q : unit -> vi -> ed -> Prop), L s t c e -> m <> MNormal ->
    (forall s' c', L s' t c' false -> c' <= c -> Q tt (enter_mode_fresh m v) s') -> sv (set_mode E m) v s Q.
  Proof.
    intros m v s t c e Q H Hm K. unfold set_mode. apply sv_bind. eapply sv_smpl; [exact H|exact Hm|].
    intros s1 c1 H1 Hc1. unfold enter_mode_fresh in K. apply sv_when; intro Hi; rewrite Hi in K; [apply sv_modk1|]; eapply K; eassumption.
  Qed.
  Lemma sv_pop_mode : forall v s t c e (Q : unit -> vi -> ed -> Prop), L s t c e -> is_tilde (vmode_of v) = false ->
    (forall s' c' e', L s' t c' e' -> Q tt (leave_mode v) s') -> sv (pop_mode E) v s Q.
  Proof.
    intros v s t c e Q H Hm K. unfold pop_mode. apply sv_getk. rewrite vpop_eq. apply sv_modk, sv_mod_ed.
    rewrite Hm, orb_false_r. cbn [when].
    assert (H1 : L (set_noeol (is_normal (vmode_of (vset_stack (tl (v_stack v)) v))) s) t c
                   (is_normal (vmode_of (vset_stack (tl (v_stack v)) v)))) by (eapply L_noeol; exact H).
    apply sv_bind. apply sv_when; intros _.
    - eapply sv_group; [right; reflexivity|exact H1|]. intros s2 H2. apply sv_bind, sv_ret.
      eapply sv_set_editor_mode; [exact H2|]. intros s3 c3 H3 _. eapply K. exact H3.
    - apply sv_bind, sv_ret. eapply sv_set_editor_mode; [exact H1|]. intros s3 c3 H3 _. eapply K. exact H3.
  Qed.
  Lemma sv_abort : forall v s (Q : unit -> vi -> ed -> Prop), F s ->
    (forall s', F s' -> Q tt (abort_mode v) s') -> sv (normal_mode_abort E) v s Q.
  Proof.
    intros v s Q H K. unfold normal_mode_abort. apply sv_modk, sv_mod_ed.
    destruct (F_line s H) as [b [_ HL]]. eapply sv_set_editor_mode; [eapply L_noeol; exact HL|]. intros s' c' H' _.
    apply K. apply H'.
  Qed.

  (** A movement is finished; a pending deletion is carried out. *)
  Lemma sv_pop_am : forall mt v s t c e (Q : unit -> vi -> ed -> Prop), L s t c e -> shape (v_stack v) -> moving v ->
    (forall d, In (MDelete d) (v_stack v) ->
       match mt with Exclusive => d <= length t | Inclusive => d < length t /\ c < length t end) ->
    (forall s', F s' -> Q tt (after_movement v) s') -> sv (pop_mode_after_movement E mt) v s Q.
  Proof.
    intros mt v s t c e Q H Hsh Hm Hd K.
    assert (W : sv (pop_mode_after_movement E mt) v s (fun _ _ => F)).
    { assert (Hset : forall v s, F s -> sv (set_editor_mode E) v s (fun _ _ => F)).
      { intros v0 s0 H0. destruct (F_line s0 H0) as [b [_ HL]]. eapply sv_set_editor_mode; [exact HL|]. intros s' c' H' _. apply H'. }
      assert (Hdel : forall d v0 e', (match mt with Exclusive => d <= length t | Inclusive => d < length t /\ c < length t end) ->
        sv (lift (match mt with Exclusive => delete_until E d | Inclusive => delete_until_inclusive E d end)) v0 (set_noeol e' s) (fun _ _ => F)).
      { intros d v0 e' Hb. apply sv_lift. pose proof (L_noeol e' _ _ _ _ H) as H1. destruct (L_cur _ _ _ _ H1) as [b [Eb [Et [Ec _]]]].
        destruct mt.
        - apply (delete_until_inc_safe ascii flat srch true Hfits E HE); [apply H1|]. intros b' Hb'. rewrite Eb in Hb'. injection Hb' as <-.
          rewrite Et, Ec. tauto.
        - apply (delete_until_safe ascii flat srch true Hfits E HE); [apply H1|apply H1|]. intros b' Hb'. rewrite Eb in Hb'. injection Hb' as <-.
          rewrite Et. exact Hb. }
      unfold pop_mode_after_movement. apply sv_getk. destruct v as [st cur lst ci li n sc lc r lm]. cbn [v_stack] in *. unfold moving in Hm. cbn [v_stack] in Hm.
      assert (Hn : forall e', F (set_noeol e' s)) by (intro e'; apply F_noeol; apply H).
      inversion Hsh; subst; try contradiction;
        repeat match goal with B : base _ |- _ => destruct B as [->| ->] end;
        unfold vpop, vmode_of; vsimp; apply sv_modk, sv_mod_ed; vsimp.
      all: try (apply sv_bind, sv_ret; cbn [when]; apply sv_bind; first [apply sv_modk1|apply sv_ret]; apply Hset, Hn).
      all: apply sv_bind; eapply sv_seq; [apply Hdel; apply Hd; first [left; reflexivity|right; left; reflexivity]|];
        intros ? v1 s1 H1; cbv beta; apply sv_modk1; cbn [when]; apply sv_bind, sv_ret, Hset; exact H1. }
    eapply sv_mono; [apply (sv_vk _ _ _ _ _ W (vk_pop_am E mt v (fun _ v' => v' = after_movement v) eq_refl))|].
    cbv beta. intros [] v' s' [H1 ->]. apply K. exact H1.
  Qed.

  (** * What a key needs and leaves *)
  Definition okk (k : key) : Prop := match k with KChar c => okc c | _ => True end.
  Definition okl (v : vi) : Prop := Forall okk (v_last v) /\ (hasdel (v_stack v) -> Forall okk (v_cur v)).
  Definition del (v : vi) (s : ed) : Prop :=
    forall d b, In (MDelete d) (v_stack v) -> cur_buf s = Val b -> d <= length (data b) - 1.
  Definition P (v : vi) (s : ed) : Prop := F s /\ okl v /\ del v s.

  Lemma P_nodel : forall v s, F s -> Forall okk (v_last v) -> ~ hasdel (v_stack v) -> P v s.
  Proof.
    intros v s H K N. split; [exact H|]. split; [split; [exact K|tauto]|]. intros d b Hd. exfalso. apply N. exists d. exact Hd.
  Qed.
  Lemma P_after : forall v s, okl v -> shape (v_stack v) -> moving v -> F s -> P (after_movement v) s.
  Proof.
    intros [st cur lst ci li n sc lc r lm] s [H1 H2] Hsh Hm HF. unfold moving in Hm. cbn [v_stack v_last v_cur] in *.
    assert (Hk : forall d, In (MDelete d) st -> Forall okk cur) by (intros d Hd; apply H2; exists d; exact Hd).
    inversion Hsh; subst; try contradiction;
      repeat match goal with B : base _ |- _ => destruct B as [->| ->] end;
      unfold after_movement, vmode_of; vsimp; apply P_nodel; auto; vsimp;
      try (eapply Hk; first [left; reflexivity|right; left; reflexivity]); intros [dd Hdd]; cbn [In] in Hdd; intuition discriminate.
  Qed.
  Lemma P_abort : forall v s, okl v -> F s -> P (abort_mode v) s.
  Proof. intros v s [H1 _] HF. apply P_nodel; [exact HF|exact H1|]. intros [d []]. Qed.

  (** * Movements *)
  Lemma sv_excl : forall (m : ME unit) v s t, safe m s (fun _ s' => exists c e, L s' t c e) ->
    shape (v_stack v) -> moving v -> okl v -> (forall d, In (MDelete d) (v_stack v) -> d <= length t) ->
    sv (lift m ;;; pop_mode_after_movement E Exclusive) v s (fun _ => P).
  Proof.
    intros m v s t H Hsh Hm Hl Hd. apply sv_bind, sv_lift. eapply safe_mono; [exact H|]. intros [] s' [c [e HL]].
    eapply sv_pop_am; [exact HL|exact Hsh|exact Hm|exact Hd|]. intros s2 H2. apply P_after; assumption.
  Qed.
  (** In normal mode the line may change. *)
  Lemma sv_browse : forall (m : ME unit) v s, safe m s (fun _ => F) -> v_stack v = [] -> okl v ->
    sv (lift m ;;; pop_mode_after_movement E Exclusive) v s (fun _ => P).
  Proof.
    intros m v s H Hst Hl. apply sv_bind, sv_lift. eapply safe_mono; [exact H|]. intros [] s' HF.
    destruct (F_line s' HF) as [b [_ HL]].
    assert (Hsh : shape (v_stack v)) by (rewrite Hst; constructor).
    assert (Hm : moving v) by (unfold moving; rewrite Hst; exact I).
    eapply sv_pop_am; [exact HL|exact Hsh|exact Hm| |].
    - rewrite Hst. intros d [].
    - intros s2 H2. apply P_after; assumption.
  Qed.
  Lemma L_word : forall ws r n s t c e, L s t c e ->
    safe (vi_move_word E ws r n) s (fun _ s' => exists c', L s' t c' e /\ (r = false -> c' <= c)).
  Proof.
    intros ws r n s t c e H. unfold vi_move_word. apply safe_bind, wp_gets, safe_bind.
    destruct (L_cur _ _ _ _ H) as [b [Hb [Ht [Hc _]]]]. eapply get_cur_safe; [exact Hb|].
    eapply safe_mono; [apply (L_to _ _ _ _ _ H)|]. cbv beta. intros [] s' H'. eexists. split; [exact H'|]. intros ->.
    pose proof (move_word_left (e_uni E) ws (data b) n (ed_cursor s)) as K. rewrite Hc in *.
    match goal with |- clamp_cursor ?e ?n ?x <= _ => pose proof (clamp_bound e n x) end. lia.
  Qed.
  Lemma L_word_end : forall ws r n s t c e, L s t c e ->
    safe (vi_move_word_end E ws r n) s (fun _ s' => exists c', L s' t c' e).
  Proof.
    intros ws r n s t c e H. unfold vi_move_word_end. apply safe_bind, wp_gets, safe_bind.
    destruct (L_cur _ _ _ _ H) as [b [Hb _]]. eapply get_cur_safe; [exact Hb|].
    eapply safe_mono; [apply (L_to _ _ _ _ _ H)|]. cbv beta. intros [] s' H'. eexists. exact H'.
  Qed.
  Lemma move_count_nz : forall v, (move_count v =? 0)%N = false.
  Proof. intro v. unfold move_count. destruct (v_count v =? 0)%N eqn:E0; [reflexivity|exact E0]. Qed.
  Lemma sv_mcr : forall v s t c e (Q : nat -> vi -> ed -> Prop), L s t c e ->
    (forall n, c + n <= length t -> (0 < length t - c -> 0 < n) -> Q n v s) -> sv mcr v s Q.
  Proof.
    intros v s t c e Q H K. unfold mcr. apply sv_getk, sv_gete. destruct (L_cur _ _ _ _ H) as [b [Hb [Ht [Hc _]]]].
    pose proof (L_le _ _ _ _ H) as Hle. eapply sv_liftr.
    - unfold move_count_right. rewrite Hb. cbn [rbind]. unfold num_chars. rewrite sub_chk_le; [|rewrite Ht, Hc; exact Hle].
      cbn [rbind]. reflexivity.
    - rewrite Ht, Hc. pose proof (move_count_nz v) as Hz. apply N.eqb_neq in Hz. apply K; lia.
  Qed.

  (** ** Character searches *)
  Lemma find_bound : forall t st x n i, (n =? 0)%N = false -> nth_big (positions x st (skipn st t)) n = Some i -> st <= i < length t.
  Proof.
    intros t st x n i Hn H. apply N.eqb_neq in Hn. pose proof (nth_big_spec (positions x st (skipn st t)) n Hn) as K.
    rewrite H in K. destruct K as [k [_ K]]. apply positions_nth in K as [m [r [K1 [_ ->]]]].
    assert (Hl : length (skipn st t) = length m + S (length r)) by (rewrite K1, app_length; reflexivity).
    rewrite skipn_length in Hl. lia.
  Qed.
  Lemma sv_search_body : forall x m n v s t c e, L s t c e -> (n =? 0)%N = false -> direct m -> shape (v_stack v) -> moving v -> okl v ->
    (forall d, In (MDelete d) (v_stack v) -> d <= length t - 1) ->
    (m = RightUntil \/ m = RightAt -> hasdel (v_stack v) -> c < length t) ->
    sv (s <- gete ;;
        b <- lift get_cur ;;
        let go (r : res (option nat)) (adj : nat -> nat) : MV unit :=
          o <- liftr r ;;
          match o with Some i => lift (move_cursor_to E (adj i)) | None => ret tt end in
        mt <- (match m with
           | RightUntil => go (find_char (data b) (ed_cursor s + 1) x n) (fun i => i - 1) ;;; ret Inclusive
           | RightAt => go (find_char (data b) (ed_cursor s + 1) x n) (fun i => i) ;;; ret Inclusive
           | LeftUntil => go (find_char_rev (data b) (ed_cursor s) x n) (fun i => i + 1) ;;; ret Exclusive
           | LeftAt => go (find_char_rev (data b) (ed_cursor s) x n) (fun i => i) ;;; ret Exclusive
           | RepeatMove | ReverseRepeat => pan PUnreach
           end) ;;
        pop_mode_after_movement E mt) v s (fun _ => P).
  Proof.
    intros x m n v s t c e H Hn Hdir Hsh Hm Hl Hd Hr. apply sv_gete. destruct (L_cur _ _ _ _ H) as [b [Hb [Ht [Hc _]]]].
    apply sv_bind, sv_lift. eapply get_cur_safe; [exact Hb|]. cbv zeta. rewrite Ht, Hc. pose proof (L_le _ _ _ _ H) as Hle.
    assert (Hright : forall adj, (forall i, adj i <= i) -> (hasdel (v_stack v) -> c < length t) ->
      sv (o <- liftr (find_char t (c + 1) x n) ;;
          match o with Some i => lift (move_cursor_to E (adj i)) | None => ret tt end) v s
         (fun _ v' s' => v' = v /\ exists c', L s' t c' e /\ (hasdel (v_stack v) -> c' < length t))).
    { intros adj Ha Hr'. apply sv_bind. unfold find_char. rewrite Hn. eapply sv_liftr; [reflexivity|].
      destruct (nth_big _ n) as [i|] eqn:Ei; [|apply sv_ret; split; [reflexivity|exists c; auto]].
      apply (find_bound t (c + 1) x n i Hn) in Ei.
      apply sv_lift. eapply safe_mono; [apply (L_to _ _ _ _ _ H)|]. cbv beta. intros [] s' H'. split; [reflexivity|].
      eexists. split; [exact H'|]. intros _. specialize (Ha i).
      match goal with |- clamp_cursor ?e ?n ?x < _ => pose proof (clamp_bound e n x) end. lia. }
    assert (Hleft : forall adj,
      sv (o <- liftr (find_char_rev t c x n) ;;
          match o with Some i => lift (move_cursor_to E (adj i)) | None => ret tt end) v s
         (fun _ v' s' => v' = v /\ exists c', L s' t c' e)).
    { intros adj. apply sv_bind. unfold find_char_rev. rewrite Hn, sub_chk_le by exact Hle. cbn [rbind]. eapply sv_liftr; [reflexivity|].
      destruct (nth_big _ n) as [i|]; [|apply sv_ret; split; [reflexivity|exists c; exact H]].
      apply sv_lift. eapply safe_mono; [apply (L_to _ _ _ _ _ H)|]. cbv beta. intros [] s' H'. split; [reflexivity|]. eexists. exact H'. }
    assert (Hincl : forall v' s', v' = v /\ (exists c', L s' t c' e /\ (hasdel (v_stack v) -> c' < length t)) ->
      sv (pop_mode_after_movement E Inclusive) v' s' (fun _ => P)).
    { intros v' s' [-> [c' [H' K']]]. eapply sv_pop_am; [exact H'|exact Hsh|exact Hm| |intros s2 H2; apply P_after; assumption].
      intros d Hdd. specialize (Hd d Hdd). assert (c' < length t) by (apply K'; exists d; exact Hdd). split; lia. }
    assert (Hexcl : forall v' s', v' = v /\ (exists c', L s' t c' e) ->
      sv (pop_mode_after_movement E Exclusive) v' s' (fun _ => P)).
    { intros v' s' [-> [c' H']]. eapply sv_pop_am; [exact H'|exact Hsh|exact Hm| |intros s2 H2; apply P_after; assumption].
      intros d Hdd. specialize (Hd d Hdd). lia. }
    destruct m; try (destruct Hdir; congruence); apply sv_bind; eapply sv_seq;
      [apply Hright; [intro; lia|apply Hr; auto]| |apply Hright; [intro; lia|apply Hr; auto]| |apply Hleft| |apply Hleft|];
      intros ? v' s' K; apply sv_ret; auto.
  Qed.
  Lemma sv_move_to_char : forall k m v s t c e, L s t c e -> shape (v_stack v) -> moving v -> okl v -> okk k -> lcm_ok v ->
    (forall d, In (MDelete d) (v_stack v) -> d <= length t - 1) ->
    (goes_right m v k -> hasdel (v_stack v) -> c < length t) ->
    sv (vi_move_to_char E k m) v s (fun _ => P).
  Proof.
    intros k m v s t c e H Hsh Hm Hl Hk Hlc Hd Hr. unfold vi_move_to_char. apply sv_getk. cbv zeta. apply sv_modk.
    assert (Hab : sv (normal_mode_abort E ;;; ret None) (vset_count 0 v) s
       (fun (a : option (char * cmove)) v' s' => a = None /\ P v' s')).
    { apply sv_bind, sv_abort; [apply H|]. intros s' H'. apply sv_ret. split; [reflexivity|]. apply P_abort; [exact Hl|exact H']. }
    assert (Hbody : forall x m' v', direct m' -> v_stack v' = v_stack v -> okl v' -> (m' = RightUntil \/ m' = RightAt -> goes_right m v k) ->
      sv (s <- gete ;;
        b <- lift get_cur ;;
        let go (r : res (option nat)) (adj : nat -> nat) : MV unit :=
          o <- liftr r ;;
          match o with Some i => lift (move_cursor_to E (adj i)) | None => ret tt end in
        mt <- (match m' with
           | RightUntil => go (find_char (data b) (ed_cursor s + 1) x (move_count v)) (fun i => i - 1) ;;; ret Inclusive
           | RightAt => go (find_char (data b) (ed_cursor s + 1) x (move_count v)) (fun i => i) ;;; ret Inclusive
           | LeftUntil => go (find_char_rev (data b) (ed_cursor s) x (move_count v)) (fun i => i + 1) ;;; ret Exclusive
           | LeftAt => go (find_char_rev (data b) (ed_cursor s) x (move_count v)) (fun i => i) ;;; ret Exclusive
           | RepeatMove | ReverseRepeat => pan PUnreach
           end) ;;
        pop_mode_after_movement E mt) v' s (fun _ => P)).
    { intros x m' v' H1 H2 H3 H4. eapply sv_search_body; [exact H|apply move_count_nz|exact H1|rewrite H2; exact Hsh|
        unfold moving in *; rewrite H2; exact Hm|exact H3|rewrite H2; exact Hd|]. rewrite H2. intros K. apply Hr. apply H4. exact K. }
    assert (Hchar : forall x, k = KChar x -> direct m ->
      sv (modk (vset_lcm (Some (x, m))) ;;; push_cur k ;;; ret (Some (x, m))) (vset_count 0 v) s
         (fun a v' s' => s' = s /\ a = Some (x, m) /\ v_stack v' = v_stack v /\ okl v')).
    { intros x -> Hm'. apply sv_modk. unfold push_cur. apply sv_modk, sv_ret. split; [reflexivity|]. split; [reflexivity|]. split; [reflexivity|].
      destruct Hl as [L1 L2]. split; [exact L1|]. vsimp. intro K. apply Forall_app. split; [apply L2; exact K|]. constructor; [exact Hk|constructor]. }
    assert (Hlast : forall a, v_lcm v = Some a -> direct (snd a)) by (intros [x m'] Ex; apply (Hlc x m' Ex)).
    assert (Hl0 : okl (vset_count 0 v)) by exact Hl.
    assert (Hown : direct m -> forall o : option (char * cmove), o = v_lcm v ->
      sv (target <- match k with KChar c0 => modk (vset_lcm (Some (c0, m))) ;;; push_cur k ;;; ret (Some (c0, m))
          | _ => normal_mode_abort E ;;; ret None end ;;
          match target with
          | None => ret tt
          | Some (x, m') =>
            s <- gete ;;
            b <- lift get_cur ;;
            let go (r : res (option nat)) (adj : nat -> nat) : MV unit :=
              o <- liftr r ;;
              match o with Some i => lift (move_cursor_to E (adj i)) | None => ret tt end in
            mt <- (match m' with
           | RightUntil => go (find_char (data b) (ed_cursor s + 1) x (move_count v)) (fun i => i - 1) ;;; ret Inclusive
           | RightAt => go (find_char (data b) (ed_cursor s + 1) x (move_count v)) (fun i => i) ;;; ret Inclusive
           | LeftUntil => go (find_char_rev (data b) (ed_cursor s) x (move_count v)) (fun i => i + 1) ;;; ret Exclusive
           | LeftAt => go (find_char_rev (data b) (ed_cursor s) x (move_count v)) (fun i => i) ;;; ret Exclusive
           | RepeatMove | ReverseRepeat => pan PUnreach
           end) ;;
            pop_mode_after_movement E mt
          end) (vset_count 0 v) s (fun _ => P)).
    { intros Hdm o _.
      destruct k as [x|x|x| | | | | | | | | | |];
        try (eapply sv_seq; [exact Hab|]; intros a v' s' [-> K]; apply sv_ret; exact K).
      eapply sv_seq; [apply (Hchar x eq_refl Hdm)|]. intros a v' s' [-> [-> [K1 K2]]].
      apply Hbody; [exact Hdm|exact K1|exact K2|]. destruct m; intros [K|K]; try discriminate; exists x; reflexivity. }
    destruct m; try (apply (Hown ltac:(split; discriminate) (v_lcm v) eq_refl));
      destruct (v_lcm v) as [[x m']|] eqn:El; try (eapply sv_seq; [exact Hab|]; intros a v' s' [-> K]; apply sv_ret; exact K);
      specialize (Hlast _ eq_refl); cbn [snd] in Hlast.
    - apply sv_bind, sv_ret. apply Hbody; auto. intros [->| ->]; cbn [goes_right]; rewrite El; eauto.
    - destruct m'; try (destruct Hlast; congruence); apply sv_bind, sv_ret;
        [apply (Hbody x LeftUntil)|apply (Hbody x LeftAt)|apply (Hbody x RightUntil)|apply (Hbody x RightAt)]; auto; try (split; discriminate);
        intros [K|K]; try discriminate; cbn [goes_right]; rewrite El; eauto.
  Qed.

  (** ** Editor methods used by keys *)
  Lemma F_cur : forall s, F s -> cur s.
  Proof. intros s H. apply H. Qed.
  Lemma sv_F : forall {A} (m : ME A) v s, safe m s (fun _ => F) -> sv (lift m) v s (fun _ v' s' => v' = v /\ F s').
  Proof. intros A m v s H. apply sv_lift. eapply safe_mono; [exact H|]. cbv beta. auto. Qed.
  Lemma common_safe : forall k s, F s -> safe (match k with
        | KCtrl c => if is_char c "l" then clear E else ret tt
        | KLeft => move_cursor_left E 1
        | KRight => move_cursor_right E 1
        | KUp => move_up E
        | KDown => move_down E
        | KHome => move_cursor_to_start_of_line E
        | KEnd => move_cursor_to_end_of_line E
        | KBackspace => delete_before_cursor E
        | KDelete => delete_after_cursor E
        | _ => ret tt
        end) s (fun _ => F).
  Proof.
    intros k s H. pose proof H as [HG [Hc _]].
    destruct k; try exact H.
    - destruct (is_char c "l"); [apply (clear_safe ascii flat srch true Hfits E HE); exact HG|exact H].
    - apply (left_safe ascii flat srch true Hfits E HE); exact HG.
    - apply (right_safe ascii flat srch true Hfits E HE); assumption.
    - apply (up_safe ascii flat srch true Hfits E HE); exact HG.
    - apply (down_safe ascii flat srch true Hfits E HE); exact HG.
    - apply (move_start_safe ascii flat srch true Hfits E HE); exact HG.
    - apply (move_end_safe ascii flat srch true Hfits E HE); exact HG.
    - apply (delete_before_safe ascii flat srch true Hfits E HE); assumption.
    - apply (delete_after_safe ascii flat srch true Hfits E HE); exact HG.
  Qed.
  Lemma sv_common : forall k v s, F s -> sv (vi_common E k) v s (fun _ v' s' => v' = v /\ F s').
  Proof. intros k v s H. apply sv_F. apply common_safe. exact H. Qed.

  (** * Insert mode *)
  Definition rk (k : key) : Prop := okk k /\ plain k.
  Definition IN (v : vi) (s : ed) : Prop := F s /\ v_stack v = [MInsert] /\ Forall rk (v_last v).
  Lemma sv_groupF : forall f v s, (f = start_undo_group \/ f = end_undo_group) -> F s ->
    sv (buf_mut f) v s (fun _ v' s' => v' = v /\ F s').
  Proof.
    intros f v s Hf H. destruct (F_line s H) as [b [_ HL]]. eapply sv_group; [exact Hf|exact HL|]. intros s' H'.
    split; [reflexivity|apply H'].
  Qed.
  Lemma sv_insert_reset : forall v s, IN v s -> sv insert_reset v s (fun _ => IN).
  Proof.
    intros v s [H1 [H2 H3]]. unfold insert_reset. apply sv_getk. apply sv_when; intros _; [|split; auto].
    eapply sv_seq; [apply sv_groupF; [right; reflexivity|exact H1]|]. intros ? v1 s1 [-> K1].
    eapply sv_seq; [apply sv_groupF; [left; reflexivity|exact K1]|]. intros ? v2 s2 [-> K2].
    apply sv_modk1. split; [exact K2|]. split; [exact H2|]. constructor.
  Qed.
  Lemma IN_push : forall k v s, rk k -> IN v s -> IN (vset_last (v_last v ++ [k]) v) s.
  Proof.
    intros k v s Hk [H1 [H2 H3]]. split; [exact H1|]. split; [exact H2|]. vsimp. apply Forall_app. split; [exact H3|].
    constructor; [exact Hk|constructor].
  Qed.
  Lemma IN_F : forall v s s', IN v s -> F s' -> IN v s'.
  Proof. intros v s s' [_ H] H'. split; assumption. Qed.
  Lemma sv_insert_plain : forall rec k v s, okk k -> is_esc k = false -> IN v s -> sv (vi_insert rec E k) v s (fun _ => IN).
  Proof.
    intros rec k v s Hk He H. unfold vi_insert.
    assert (Hc : forall k v s, IN v s -> sv (vi_common E k) v s (fun _ => IN)).
    { intros k0 v0 s0 H0. eapply sv_mono; [apply sv_common; apply H0|]. intros ? v' s' [-> K]. eapply IN_F; [exact H0|exact K]. }
    assert (Hpc : plain k -> sv (insert_reset ;;; push_last k ;;; vi_common E k) v s (fun _ => IN)).
    { intros Hp. eapply sv_seq; [apply sv_insert_reset; exact H|]. intros ? v1 s1 H1. unfold push_last. apply sv_modk.
      apply Hc. apply IN_push; [split; assumption|exact H1]. }
    assert (Hmc : sv (modk (fun v0 => vset_reset true (vset_count 0 v0)) ;;; vi_common E k) v s (fun _ => IN)).
    { apply sv_modk. apply Hc. exact H. }
    assert (Hb : forall m : ME unit, (forall s, F s -> safe m s (fun _ => F)) ->
      sv (modk (fun v0 => vset_reset true (vset_count 0 v0)) ;;; buf_mut end_undo_group ;;; lift m ;;; buf_mut start_undo_group) v s (fun _ => IN)).
    { intros m Hm. apply sv_modk. set (v0 := vset_reset true (vset_count 0 v)).
      assert (H0 : IN v0 s) by exact H.
      eapply sv_seq; [apply sv_groupF; [right; reflexivity|apply H]|]. intros ? v1 s1 [-> K1].
      eapply sv_seq; [apply sv_F; apply Hm; exact K1|]. intros ? v2 s2 [-> K2].
      eapply sv_mono; [apply sv_groupF; [left; reflexivity|exact K2]|]. intros ? v3 s3 [-> K3]. eapply IN_F; eassumption. }
    destruct k as [x|x|x| | | | | | | | | | |]; try discriminate; try exact Hmc; try (apply Hpc; exact I); try (apply Hc; exact H).
    - eapply sv_seq; [apply sv_insert_reset; exact H|]. intros ? v1 s1 H1. unfold push_last. apply sv_modk.
      assert (H2 : IN (vset_last (v_last v1 ++ [KChar x]) v1) s1) by (apply IN_push; [split; [exact Hk|exact I]|exact H1]).
      eapply sv_mono; [apply sv_F; apply (insert_chars_safe ascii flat srch true Hfits E HE); [apply H2|apply H2|constructor; [exact Hk|constructor]]|].
      intros ? v3 s3 [-> K3]. eapply IN_F; eassumption.
    - cbn [is_esc] in He. rewrite He. apply Hc. exact H.
    - apply Hb. intros s0 H0. apply (up_safe ascii flat srch true Hfits E HE); apply H0.
    - apply Hb. intros s0 H0. apply (down_safe ascii flat srch true Hfits E HE); apply H0.
  Qed.
  Lemma sv_rec_plain : forall f k v s, rk k -> IN v s -> sv (vi_core_fuel f E k) v s (fun _ => IN).
  Proof.
    intros [|f] k v s [K1 K2] H; [exact I|]. cbn [vi_core_fuel]. apply sv_getk. unfold vmode_of. rewrite (proj1 (proj2 H)).
    apply sv_insert_plain; [exact K1|destruct k; try reflexivity; contradiction|exact H].
  Qed.
  Lemma sv_insert_esc : forall f v s, IN v s ->
    sv (v <- getk ;;
    when (0 <? v_count v)%N (
      modk (vset_lcount (v_count v)) ;;;
      Nloop (v_count v - 1) (
        v <- getk ;;
        modk (vset_last []) ;;;
        mfor (v_last v) (vi_core_fuel f E) ;;;
        ret true) ;;;
      modk (vset_count 0)) ;;;
    lift (move_cursor_left E 1) ;;;
    pop_mode E) v s (fun _ => P).
  Proof.
    intros f v s H. apply sv_getk. apply sv_bind.
    assert (Hend : forall v s, IN v s -> sv (lift (move_cursor_left E 1) ;;; pop_mode E) v s (fun _ => P)).
    { intros v0 s0 H0. eapply sv_seq; [apply sv_F; apply (left_safe ascii flat srch true Hfits E HE); apply H0|]. intros ? v1 s1 [-> K1].
      destruct (F_line s1 K1) as [bx [_ HL]]. eapply sv_pop_mode; [exact HL| |].
      - unfold vmode_of. rewrite (proj1 (proj2 H0)). reflexivity.
      - intros s' c' e' H'. apply P_nodel; [apply H'| |].
        + unfold leave_mode. vsimp. eapply Forall_impl; [|apply H0]. intros k [K _]. exact K.
        + unfold leave_mode. vsimp. rewrite (proj1 (proj2 H0)). intros [d []]. }
    apply sv_when; intros _; [|apply Hend; exact H]. apply sv_modk.
    eapply sv_seq; [apply (sv_Nloop _ IN); [|exact H]|].
    - intros v1 s1 H1. apply sv_getk, sv_modk. eapply sv_seq; [apply (sv_mfor _ IN)|].
      + intros k v2 s2 Hin H2. apply sv_rec_plain; [|exact H2]. destruct H1 as [_ [_ H1]]. rewrite Forall_forall in H1. apply H1. exact Hin.
      + split; [apply H1|]. split; [apply H1|constructor].
      + intros ? v2 s2 H2. exact H2.
    - intros ? v1 s1 H1. apply sv_modk1. apply Hend. exact H1.
  Qed.

  (** * A redraw succeeds on a working terminal only *)
  Definition ttyr {S A} (m : M S A) : Prop := forall s a s', m s = ORet a s' -> tty_ok E.
  Lemma ttyr_bind : forall {S A B} (m : M S A) (k : A -> M S B), (forall a, ttyr (k a)) -> ttyr (bind m k).
  Proof. intros S A B m k H s b s' Hb. unfold bind in Hb. destruct (m s); try discriminate. exact (H _ _ _ _ Hb). Qed.
  Lemma ttyr_first : forall {S A B} (m : M S A) (k : A -> M S B), ttyr m -> ttyr (bind m k).
  Proof. intros S A B m k H s b s' Hb. unfold bind in Hb. destruct (m s) eqn:Em; try discriminate. exact (H _ _ _ Em). Qed.
  Lemma ttyr_lift : forall {A} (m : ME A), ttyr m -> ttyr (lift m : MV A).
  Proof. intros A m H [v s] a y Hy. unfold lift in Hy. destruct (m s) eqn:Em; try discriminate. exact (H _ _ _ Em). Qed.
  Lemma ttyr_display : ttyr (display E).
  Proof.
    unfold display. repeat (apply ttyr_bind; intro). unfold display_impl. repeat (apply ttyr_bind; intro).
    match goal with |- ttyr (let '(_, _) := ?x in _) => destruct x end.
    destruct (e_size E) as [w|] eqn:Es; [|intros s0 b s' Hb; discriminate].
    destruct (terminal_width (Some w)); [|intros s0 b s' Hb; discriminate].
    repeat (apply ttyr_bind; intro). match goal with |- ttyr (let '(_, _) := ?x in _) => destruct x end.
    apply ttyr_bind. intro. intros s0 b s' Hb. unfold emit in Hb. destruct (e_wok E) eqn:Ew; [|discriminate].
    split; [exact Ew|rewrite Es; discriminate].
  Qed.
  Lemma ttyr_right : forall n, ttyr (move_cursor_right E n).
  Proof. intro n. unfold move_cursor_right. repeat (first [exact ttyr_display|apply ttyr_bind; intro]). Qed.
  Lemma ttyr_delete_after : ttyr (delete_after_cursor E).
  Proof. unfold delete_after_cursor. repeat (first [exact ttyr_display|apply ttyr_bind; intro]). Qed.
  Lemma ttyr_tilde : ttyr (tilde_step E).
  Proof.
    unfold tilde_step. apply ttyr_bind. intro s. apply ttyr_bind. intro b.
    destruct (char_after b (ed_cursor s)); [|intros y a y' Hy; discriminate].
    destruct (u_lower _ _); [apply ttyr_first, ttyr_lift, ttyr_delete_after|].
    destruct (u_upper _ _); [apply ttyr_first, ttyr_lift, ttyr_delete_after|apply ttyr_lift, ttyr_right].
  Qed.
  Lemma sv_ttyr : forall {A} (m : MV A) v s (Q : A -> vi -> ed -> Prop), ttyr m -> sv m v s Q ->
    sv m v s (fun a v' s' => Q a v' s' /\ tty_ok E).
  Proof.
    intros A m v s Q H K. unfold sv, safe, wp in *. specialize (H (v, s)). destruct (m (v, s)); auto.
    split; [exact K|]. eapply H. reflexivity.
  Qed.

  (** * The key [~] *)
  Context (HC : ok_case ascii flat srch E).
  Lemma okt_at : forall s t c e i x, L s t c e -> nth_error t i = Some x -> okc x.
  Proof.
    intros s t c e i x H Hx. destruct (L_cur _ _ _ _ H) as [b [Hb [Ht _]]].
    destruct (cur_safe _ _ _ _ s (proj1 (proj1 H))) as [b' [Hb' [Ho _]]]. rewrite Hb in Hb'. injection Hb' as <-.
    rewrite Ht in Ho. unfold ok_text in Ho. rewrite Forall_forall in Ho. apply Ho. eapply nth_error_In. exact Hx.
  Qed.
  Lemma sv_typed : forall x v s a r c, okt x -> L s (a ++ r) c false -> length a = c ->
    sv (mfor x (fun y => lift (insert_after_cursor E y))) v s
       (fun _ v' s' => v' = v /\ L s' (a ++ x ++ r) (length (a ++ x)) false).
  Proof.
    induction x as [|y x IH]; intros v s a r c Hx H Ha; cbn [mfor].
    - apply sv_ret. rewrite app_nil_r, Ha. split; [reflexivity|exact H].
    - inversion Hx; subst. apply sv_bind, sv_lift. unfold insert_after_cursor.
      eapply safe_mono; [apply (L_insert [y] _ a r _ _ H eq_refl); constructor; [assumption|constructor]|].
      cbv beta. intros u s1 H1. rewrite clamp_false in H1 by (rewrite !app_length; cbn [length]; lia).
      replace (a ++ [y] ++ r) with ((a ++ [y]) ++ r) in H1 by (rewrite <- app_assoc; reflexivity).
      eapply sv_mono; [apply (IH v s1 (a ++ [y]) r _ H3 H1 eq_refl)|]. cbv beta. intros ? v' s' [-> K]. split; [reflexivity|].
      rewrite <- !app_assoc in K. cbn [app] in K |- *. exact K.
  Qed.
  Lemma sv_tilde_step : forall v s t c, L s t c false -> c < length t ->
    sv (tilde_step E) v s (fun _ v' s' => v' = v /\ exists t' c', L s' t' c' false /\ length t' - c' = length t - S c /\ c' <= length t').
  Proof.
    intros v s t c H Hc. unfold tilde_step. apply sv_gete. destruct (L_cur _ _ _ _ H) as [b [Hb [Ht [Ec _]]]].
    apply sv_bind, sv_lift. eapply get_cur_safe; [exact Hb|]. unfold char_after. rewrite Ht, Ec.
    destruct (nth_error t c) as [x|] eqn:Ex; [|apply nth_error_None in Ex; lia].
    pose proof (okt_at _ _ _ _ _ _ H Ex) as Hx. destruct (HC x Hx) as [Hu Hl].
    apply nth_error_split in Ex as [a [r [Et Ea]]]. rewrite Et in H, Hc |- *.
    assert (W : forall y, okt y -> sv (lift (delete_after_cursor E) ;;; mfor y (fun z => lift (insert_after_cursor E z))) v s
      (fun _ v' s' => v' = v /\ exists t' c', L s' t' c' false /\ length t' - c' = length (a ++ x :: r) - S c /\ c' <= length t')).
    { intros y Hy. apply sv_bind, sv_lift. eapply safe_mono; [apply (L_delete_after _ _ _ _ _ _ H Ea)|]. cbv beta. intros u s1 H1.
      rewrite clamp_false in H1 by (rewrite app_length; lia).
      eapply sv_mono; [apply (sv_typed y v s1 a r c Hy H1 Ea)|]. cbv beta. intros ? v' s' [-> K]. split; [reflexivity|].
      eexists _, _. split; [exact K|]. rewrite !app_length. cbn [length]. lia. }
    destruct (u_lower (e_uni E) x); [apply W; exact Hu|]. destruct (u_upper (e_uni E) x); [apply W; exact Hl|].
    apply sv_lift. eapply safe_mono; [apply (L_right 1 _ _ _ _ H)|]. cbv beta. intros u s' K. split; [reflexivity|].
    eexists _, _. split; [exact K|]. rewrite clamp_false by lia. lia.
  Qed.
  Lemma sv_tilde_loop : forall {A} (l : list A) v s t c, L s t c false -> c + length l <= length t ->
    sv (mfor l (fun _ => tilde_step E)) v s
       (fun _ v' s' => v' = v /\ (exists t' c', L s' t' c' false) /\ (l <> [] -> tty_ok E)).
  Proof.
    intros A l. induction l as [|x l IH]; intros v s t c H Hc; cbn [mfor].
    - apply sv_ret. split; [reflexivity|]. split; [eauto|congruence].
    - cbn [length] in Hc. eapply sv_seq; [apply sv_ttyr; [apply ttyr_tilde|apply (sv_tilde_step v s t c H); lia]|]. cbv beta.
      intros u v1 s1 [[-> [t' [c' [K1 [K2 K3]]]]] Hk]. eapply sv_mono; [apply (IH v s1 t' c' K1); lia|]. cbv beta.
      intros ? v' s' [-> [K _]]. split; [reflexivity|]. split; [exact K|auto].
  Qed.
  Lemma sv_pop_tilde : forall v s t c e (Q : unit -> vi -> ed -> Prop), L s t c e -> tty_ok E ->
    (forall s', F s' -> Q tt (leave_mode v) s') -> sv (pop_mode E) v s Q.
  Proof.
    intros v s t c e Q H Htt K. unfold pop_mode. apply sv_getk. rewrite vpop_eq. apply sv_modk, sv_mod_ed.
    assert (H1 : L (set_noeol (is_normal (vmode_of (vset_stack (tl (v_stack v)) v))) s) t c
                   (is_normal (vmode_of (vset_stack (tl (v_stack v)) v)))) by (eapply L_noeol; exact H).
    set (v' := vset_reset _ _). change v' with (leave_mode v). clear v'.
    assert (Hs : forall s, F s -> sv (set_editor_mode E) (leave_mode v) s Q).
    { intros s0 H0. destruct (F_line s0 H0) as [bx [_ HL]]. eapply sv_set_editor_mode; [exact HL|]. intros s' c' H' _. apply K. apply H'. }
    assert (Hd : forall s, F s -> sv (when (is_tilde (vmode_of v)) (fun st =>
        match lift (display E) st with OErr _ _ => OPanic PUnwrap | o => o end) ;;; set_editor_mode E) (leave_mode v) s Q).
    { intros s0 H0. apply sv_bind, sv_when; intros _; [|apply Hs; exact H0].
      pose proof (display_safe ascii flat srch true Hfits E HE s0 (proj1 H0)) as W. pose proof (errs_display E s0) as X.
      unfold safe, wp in W. unfold sv at 1. unfold safe at 1, wp at 1, lift. destruct (display E s0) as [u s1|x s1|q|]; auto.
      destruct X as [_ X]. contradiction. }
    apply sv_bind, sv_when; intros _; [|apply Hd; apply H1].
    eapply sv_group; [right; reflexivity|exact H1|]. intros s2 H2. apply Hd. apply H2.
  Qed.

  (** * The key [r] *)
  Lemma okk_lit : forall c, (c <? 128)%N = true -> c <> c_nl -> c <> c_bs -> c <> c_esc -> okk (KChar c).
  Proof. intros c H1 H2 H3 H4. split; [intros _; apply N.ltb_lt; exact H1|]. split; [intros _; split; assumption|intros _; exact H4]. Qed.
  Lemma sv_replace : forall k v s, F s -> v_stack v = [MReplace] -> okl v -> okk k -> sv (vi_replace E k) v s (fun _ => P).
  Proof.
    intros k v s H Hst Hl Hk. unfold vi_replace. apply sv_bind.
    assert (Hend : forall v s, P v s -> sv (modk (vset_count 0)) v s (fun _ => P)) by (intros v0 s0 K; apply sv_modk1; exact K).
    assert (Hpop : forall v s, F s -> v_stack v = [MReplace] -> Forall okk (v_last v) ->
      sv (pop_mode E) v s (fun _ v' s' => sv (modk (vset_count 0)) v' s' (fun _ => P))).
    { intros v0 s0 K1 K2 K3. destruct (F_line s0 K1) as [bx [_ HL]]. eapply sv_pop_mode; [exact HL|unfold vmode_of; rewrite K2; reflexivity|].
      intros s' c' e' H'. apply Hend. apply P_nodel; [apply H'|exact K3|]. unfold leave_mode. vsimp. rewrite K2. apply hasdel_nil. }
    assert (Hab : sv (normal_mode_abort E) v s (fun _ v' s' => sv (modk (vset_count 0)) v' s' (fun _ => P))).
    { apply sv_abort; [exact H|]. intros s' H'. apply Hend. apply P_abort; assumption. }
    destruct k as [x|x|x| | | | | | | | | | |]; try exact Hab.
    destruct (F_line s H) as [bx [_ HL]]. apply sv_bind. eapply sv_mcr; [exact HL|]. intros n _ _. apply sv_getk. apply sv_bind.
    apply sv_when; intros _; [|apply Hpop; [exact H|exact Hst|apply Hl]]. apply sv_modk.
    set (v1 := vset_lcount _ _). assert (S1 : v_stack v1 = [MReplace]) by exact Hst.
    assert (S2 : Forall okk (v_last v1)).
    { unfold v1. vsimp. constructor; [apply okk_lit; [reflexivity|discriminate|discriminate|discriminate]|]. constructor; [exact Hk|constructor]. }
    clearbody v1. eapply sv_seq; [apply sv_groupF; [left; reflexivity|exact H]|]. intros ? v2 s2 [-> K2].
    destruct (F_line s2 K2) as [by_ [_ HL2]]. apply sv_bind. eapply sv_mcr; [exact HL2|]. intros n2 _ _.
    eapply sv_seq with (R := fun _ v' s' => v' = v1 /\ F s').
    { apply (sv_mfor _ (fun v' s' => v' = v1 /\ F s')); [|auto]. intros i v3 s3 _ [-> K3].
      eapply sv_seq; [apply sv_F; apply (delete_after_safe ascii flat srch true Hfits E HE); apply K3|]. intros ? v4 s4 [-> K4].
      apply sv_F. apply (insert_chars_safe ascii flat srch true Hfits E HE); [apply K4|apply K4|constructor; [exact Hk|constructor]]. }
    intros ? v3 s3 [-> K3]. eapply sv_seq; [apply sv_groupF; [right; reflexivity|exact K3]|]. intros ? v4 s4 [-> K4].
    eapply sv_mono; [apply sv_F; apply (left_safe ascii flat srch true Hfits E HE); apply K4|]. intros ? v5 s5 [-> K5].
    apply Hpop; assumption.
  Qed.

  (** * Normal mode *)
  Lemma sv_normal : forall rec k v s t c e, L s t c e -> v_stack v = [] -> okl v -> lcm_ok v -> okk k -> c <= length t - 1 ->
    (k = kch "~" -> t = [] -> tty_ok E) -> kis k "." = false ->
    sv (vi_normal rec E k) v s (fun _ => P).
  Proof.
    intros rec k v s t c e H Hst Hl Hlc Hk Hc Ht Hdot. pose proof (L_F _ _ _ _ H) as HF. pose proof HF as [HG [Hcu _]].
    assert (Hv : forall v' s', F s' -> v_stack v' = [] -> Forall okk (v_last v') -> P v' s').
    { intros v' s' K1 K2 K3. apply P_nodel; [exact K1|exact K3|]. rewrite K2. apply hasdel_nil. }
    assert (Hi : forall v' s', F s' -> v_stack v' = [MInsert] -> Forall okk (v_last v') -> P v' s').
    { intros v' s' K1 K2 K3. apply P_nodel; [exact K1|exact K3|]. rewrite K2. apply base_nodel. right. reflexivity. }
    assert (HV : P v s) by (apply Hv; [exact HF|exact Hst|apply Hl]).
    assert (Hcom : sv (vi_common E k) v s (fun _ => P)).
    { eapply sv_mono; [apply sv_common; exact HF|]. intros ? v' s' [-> K]. apply Hv; [exact K|exact Hst|apply Hl]. }
    assert (Hbr : forall m : ME unit, safe m s (fun _ => F) -> sv (lift m ;;; pop_mode_after_movement E Exclusive) v s (fun _ => P)).
    { intros m Hm. apply sv_browse; assumption. }
    assert (Hleft : sv (v <- getk ;; s <- gete ;;
        lift (move_cursor_left E (move_count_left v s)) ;;; pop_mode_after_movement E Exclusive) v s (fun _ => P)).
    { apply sv_getk, sv_gete, Hbr. apply (left_safe ascii flat srch true Hfits E HE); exact HG. }
    assert (Hright : sv (n <- mcr ;; lift (move_cursor_right E n) ;;; pop_mode_after_movement E Exclusive) v s (fun _ => P)).
    { apply sv_bind. eapply sv_mcr; [exact H|]. intros n _ _. apply Hbr. apply (right_safe ascii flat srch true Hfits E HE); assumption. }
    assert (Hup : sv (lift (move_up E) ;;; pop_mode_after_movement E Exclusive) v s (fun _ => P)).
    { apply Hbr. apply (up_safe ascii flat srch true Hfits E HE); exact HG. }
    assert (Hdown : sv (lift (move_down E) ;;; pop_mode_after_movement E Exclusive) v s (fun _ => P)).
    { apply Hbr. apply (down_safe ascii flat srch true Hfits E HE); exact HG. }
    assert (Hcut : sv (modk (fun v => vset_lcount (v_count v) (vi_set_last1 k v)) ;;;
        n <- mcr ;; s <- gete ;; lift (delete_until E (ed_cursor s + n)) ;;; modk (vset_count 0)) v s (fun _ => P)).
    { apply sv_modk. set (v1 := vset_lcount _ _).
      apply sv_bind. eapply sv_mcr; [exact H|]. intros n Hn _. apply sv_gete. apply sv_bind, sv_lift.
      eapply safe_mono; [apply (delete_until_safe ascii flat srch true Hfits E HE); [exact HG|exact Hcu|]|].
      - intros b Hb. destruct (L_cur _ _ _ _ H) as [b' [Hb' [Eb [Ec _]]]]. rewrite Hb in Hb'. injection Hb' as <-. rewrite Ec, Eb. exact Hn.
      - cbv beta. intros [] s' K. apply sv_modk1. apply Hv; [exact K|exact Hst|]. unfold v1. vsimp. constructor; [exact Hk|constructor]. }
    assert (Hmany : forall f, (forall b, bufok b -> goodp ascii flat srch (f b)) ->
      sv (v <- getk ;; modk (vset_count 0) ;;; Nloop (move_count v) (lift (undo_like E f))) v s (fun _ => P)).
    { intros f Hf. apply sv_getk, sv_modk. eapply sv_mono.
      - apply (sv_Nloop _ (fun v' s' => v' = vset_count 0 v /\ F s')); [|auto]. intros v1 s1 [-> K]. apply sv_F.
        apply (undo_like_safe ascii flat srch true Hfits E HE); [apply K|exact Hf].
      - intros ? v' s' [-> K]. apply Hv; [exact K|exact Hst|apply Hl]. }
    assert (Hmode : forall m, m <> MNormal -> is_insert m = false -> (forall d, m <> MDelete d) -> sv (set_mode E m) v s (fun _ => P)).
    { intros m Hm1 Hm2 Hm3. eapply sv_set_mode; [exact H|exact Hm1|]. intros s' c' H' _. unfold enter_mode_fresh. rewrite Hm2.
      apply P_nodel; [apply H'|apply Hl|]. unfold enter_mode. vsimp. rewrite Hst. apply hasdel_no1. exact Hm3. }
    assert (Hins : forall (f : vi -> vi) (Q : unit -> vi -> ed -> Prop), v_stack (f v) = [] ->
      (forall v' s' c', L s' t c' false -> c' <= c -> v_stack v' = [MInsert] -> v_last v' = [] -> v_cur v' = v_cur (f v) -> Q tt v' s') ->
      sv (modk f ;;; set_mode E MInsert) v s Q).
    { intros f Q Hf HQ. apply sv_modk. eapply sv_set_mode; [exact H|discriminate|]. intros s' c' H' Hc'.
      eapply HQ; [exact H'|exact Hc'|unfold enter_mode_fresh, enter_mode; vsimp; rewrite Hf; reflexivity|reflexivity|reflexivity]. }
    assert (Henter : sv (modk (vset_lastins (Some k)) ;;; set_mode E MInsert) v s (fun _ v' s' => F s' /\ v_stack v' = [MInsert] /\ v_last v' = [])).
    { apply Hins; [exact Hst|]. intros v' s' c' K _ K2 K3 _. split; [apply K|auto]. }
    assert (Henter2 : forall m : ME unit, (forall s, F s -> safe m s (fun _ => F)) ->
      sv ((modk (vset_lastins (Some k)) ;;; set_mode E MInsert) ;;; lift m) v s (fun _ => P)).
    { intros m Hm. eapply sv_seq; [exact Henter|]. intros ? v1 s1 [K1 [K2 K3]].
      eapply sv_mono; [apply sv_F, Hm; exact K1|]. intros ? v' s' [-> K]. apply Hi; [exact K|exact K2|rewrite K3; constructor]. }
    unfold vi_normal. destruct k as [x|x|x| | | | | | | | | | |]; try exact Hcom; try exact Hleft; try exact Hright;
      try exact Hup; try exact Hdown; try exact Hcut; try (apply sv_modk1; exact HV).
    2: { destruct (is_char x "r"); [apply (Hmany buf_redo), redo_safe|exact Hcom]. }
    cbn [kis] in Hdot. rewrite Hdot.
    destruct (is_char x "i"). { eapply sv_mono; [exact Henter|]. intros ? v' s' [K1 [K2 K3]]. apply Hi; [exact K1|exact K2|rewrite K3; constructor]. }
    destruct (is_char x "a"). { apply Henter2. intros s0 [K1 [K2 _]]. apply (right_safe ascii flat srch true Hfits E HE); assumption. }
    destruct (is_char x "A"). { apply Henter2. intros s0 [K1 _]. apply (move_end_safe ascii flat srch true Hfits E HE); assumption. }
    destruct (is_char x "I"). { apply Henter2. intros s0 [K1 _]. apply (move_start_safe ascii flat srch true Hfits E HE); assumption. }
    destruct (is_char x "s").
    { eapply sv_seq; [exact Henter|]. intros ? v1 s1 [K1 [K2 K3]]. destruct (F_line s1 K1) as [bx [_ HL]].
      apply sv_bind. eapply sv_mcr; [exact HL|]. intros n Hn _. apply sv_gete, sv_bind, sv_lift.
      eapply safe_mono; [apply (delete_until_safe ascii flat srch true Hfits E HE); [apply K1|apply K1|]|].
      - intros bq Hb. destruct (L_cur _ _ _ _ HL) as [b' [Hb' [Eb [Ec _]]]]. rewrite Hb in Hb'. injection Hb' as <-. rewrite Eb. exact Hn.
      - cbv beta. intros [] s' K. apply sv_modk1. apply Hi; [exact K|exact K2|]. vsimp. rewrite K3. constructor. }
    destruct (is_char x "r"). { apply Hmode; [discriminate|reflexivity|discriminate]. }
    destruct (is_char x "d" || is_char x "c") eqn:Edc.
    { apply sv_modk.
      eapply sv_seq with (R := fun _ v' s' => (exists c' e', L s' t c' e' /\ c' <= c) /\ ~ hasdel (v_stack v') /\ Forall okk (v_last v') /\ Forall okk (v_cur v')).
      { destruct (is_char x "d").
        - apply sv_modk. unfold push_cur. apply sv_modk1. split; [exists c, e; split; [exact H|lia]|]. vsimp. rewrite Hst.
          split; [apply hasdel_nil|]. split; [apply Hl|]. constructor; [exact Hk|constructor].
        - apply sv_modk. eapply sv_set_mode; [exact H|discriminate|]. intros s' c' H' Hc'. split; [exists c', false; split; assumption|].
          unfold enter_mode_fresh, enter_mode. vsimp. rewrite Hst. split; [apply base_nodel; right; reflexivity|]. split; constructor. }
      intros ? v1 s1 [[c1 [e1 [K1 K2]]] [K3 [K4 K5]]]. apply sv_gete. apply sv_bind. eapply sv_set_mode; [exact K1|discriminate|].
      intros s2 c2 H2 Hc2. apply sv_modk1. destruct (L_cur _ _ _ _ K1) as [b1 [Hb1 [Eb1 [Ec1 _]]]].
      split; [apply H2|]. split; [split; [exact K4|intros _; exact K5]|].
      intros d bq Hd Hb. destruct (L_cur _ _ _ _ H2) as [b2 [Hb2 [Eb2 _]]]. rewrite Hb in Hb2. injection Hb2 as <-. rewrite Eb2.
      cbn [v_stack enter_mode_fresh enter_mode vset_count vset_sec vset_stack vset_reset is_insert In] in Hd. destruct Hd as [Hd|Hd]; [|exfalso; apply K3; exists d; exact Hd].
      injection Hd as <-. rewrite Ec1. lia. }
    destruct (is_char x "D").
    { apply sv_modk. eapply sv_mono; [apply sv_F; apply (delete_all_after_safe ascii flat srch true Hfits E HE); assumption|].
      intros ? v' s' [-> K]. apply Hv; [exact K|exact Hst|]. vsimp. constructor; [exact Hk|constructor]. }
    destruct (is_char x "C").
    { apply sv_modk. apply sv_bind. eapply sv_smpl; [exact H|discriminate|]. intros s1 c1 H1 _.
      eapply sv_mono; [apply sv_F; apply (delete_all_after_safe ascii flat srch true Hfits E HE); apply H1|].
      intros ? v' s' [-> K]. apply Hi; [exact K|unfold enter_mode; vsimp; rewrite Hst; reflexivity|]. unfold enter_mode. vsimp. constructor; [exact Hk|constructor]. }
    assert (Hword : forall en ws r, sv (v <- getk ;;
        lift (if en : bool then vi_move_word_end E ws r (move_count v) else vi_move_word E ws r (move_count v)) ;;;
        pop_mode_after_movement E Exclusive) v s (fun _ => P)).
    { intros en ws r. apply sv_getk, Hbr. destruct en.
      - eapply safe_mono; [apply (L_word_end ws r _ _ _ _ _ H)|]. cbv beta. intros ? s' [c' K]. apply K.
      - eapply safe_mono; [apply (L_word ws r _ _ _ _ _ H)|]. cbv beta. intros ? s' [c' [K _]]. apply K. }
    assert (Hmtc : forall m, sv (vi_move_to_char E (KChar x) m) v s (fun _ => P)).
    { intro m. eapply sv_move_to_char; [exact H|rewrite Hst; constructor|unfold moving; rewrite Hst; exact I|exact Hl|exact Hk|exact Hlc| |];
        rewrite Hst; [intros d []|intros _ K; destruct (hasdel_nil K)]. }
    assert (Hst0 : sv (lift (move_cursor_to_start_of_line E) ;;; pop_mode_after_movement E Exclusive) v s (fun _ => P))
      by (apply Hbr; apply (move_start_safe ascii flat srch true Hfits E HE); exact HG).
    assert (Hend : sv (lift (move_cursor_to_end_of_line E) ;;; pop_mode_after_movement E Exclusive) v s (fun _ => P))
      by (apply Hbr; apply (move_end_safe ascii flat srch true Hfits E HE); exact HG).
    repeat match goal with
    | |- sv (if ((48 <=? x) && (x <=? 57))%N then _ else _) _ _ _ => fail 1
    | |- sv (if is_char x "~" then _ else _) _ _ _ => fail 1
    | |- sv (if ?b then _ else _) _ _ _ => destruct b;
        [solve [exact Hleft|exact Hright|exact Hup|exact Hdown|apply Hmtc|exact (Hword false false true)|exact (Hword false true true)|exact (Hword true false true)
               |exact (Hword true true true)|exact (Hword true false false)|exact (Hword true true false)
               |apply Hmode; [discriminate|reflexivity|discriminate]]|]
    end.
    destruct ((48 <=? x)%N && (x <=? 57)%N).
    { apply sv_getk. match goal with |- sv (if ?b then _ else _) _ _ _ => destruct b end; [exact Hst0|]. apply sv_modk1. exact HV. }
    destruct (is_char x "^"); [exact Hst0|]. destruct (is_char x "$"); [exact Hend|]. destruct (is_char x "x"); [exact Hcut|].
    destruct (is_char x "~") eqn:Etl.
    { apply sv_modk. apply sv_bind. eapply sv_set_mode; [exact H|discriminate|]. intros s1 c1 H1 Hc1. apply sv_bind. eapply sv_mcr; [exact H1|].
      intros n Hn1 Hn2. eapply sv_seq; [apply (sv_tilde_loop (seq 0 n) _ s1 t c1 H1); rewrite seq_length; exact Hn1|].
      intros ? v2 s2 [-> [[t2 [c2 K2]] Htt]]. eapply sv_pop_tilde; [exact K2| |].
      - destruct n as [|n]; [|apply Htt; discriminate]. apply Ht; [apply N.eqb_eq in Etl; subst x; reflexivity|].
        destruct t as [|y t]; [reflexivity|]. cbn [length] in *. lia.
      - intros s' K. apply Hv; [exact K| |].
        + unfold leave_mode, enter_mode_fresh, enter_mode. vsimp. exact Hst.
        + unfold leave_mode, enter_mode_fresh, enter_mode. vsimp. constructor; [exact Hk|constructor]. }
    destruct (is_char x "u"); [apply (Hmany buf_undo), undo_safe|exact Hcom].
  Qed.

  (** * After [d] or [c] *)
  Lemma sv_normal_delete : forall rec k v s t c e d l, L s t c e -> v_stack v = MDelete d :: l -> base l -> okl v -> lcm_ok v -> okk k ->
    d <= length t - 1 ->
    match k with
    | KLeft | KRight | KBackspace | KHome | KEnd => True
    | KChar c => delete_char c
    | _ => False
    end ->
    ((k = kch ";" /\ goes_right RepeatMove v k) \/ (k = kch "," /\ goes_right ReverseRepeat v k) -> c < length t) ->
    sv (vi_normal rec E k) v s (fun _ => P).
  Proof.
    intros rec k v s t c e d l H Hst Hb Hl Hlc Hk Hd Hkey Hr.
    assert (Hsh : shape (v_stack v)) by (rewrite Hst; constructor; exact Hb).
    assert (Hmv : moving v) by (unfold moving; rewrite Hst; exact I).
    assert (Hdd : forall d', In (MDelete d') (v_stack v) -> d' = d).
    { rewrite Hst. intros d' [K|K]; [congruence|]. exfalso. apply (base_nodel l Hb). exists d'. exact K. }
    assert (Hex : forall m : ME unit, safe m s (fun _ s' => exists c' e', L s' t c' e') ->
      sv (lift m ;;; pop_mode_after_movement E Exclusive) v s (fun _ => P)).
    { intros m Hm. eapply sv_excl; [exact Hm|exact Hsh|exact Hmv|exact Hl|]. intros d' K. rewrite (Hdd d' K). lia. }
    assert (Hkeep : forall v' s' c' e', L s' t c' e' -> v_stack v' = v_stack v -> okl v' -> P v' s').
    { intros v' s' c' e' K1 K2 K3. split; [apply K1|]. split; [exact K3|]. intros d' b' K4 K5. rewrite K2 in K4. rewrite (Hdd d' K4).
      destruct (L_cur _ _ _ _ K1) as [b2 [Hb2 [Eb2 _]]]. rewrite K5 in Hb2. injection Hb2 as <-. rewrite Eb2. exact Hd. }
    assert (Hleft : sv (v <- getk ;; s <- gete ;;
        lift (move_cursor_left E (move_count_left v s)) ;;; pop_mode_after_movement E Exclusive) v s (fun _ => P)).
    { apply sv_getk, sv_gete, Hex. eapply safe_mono; [apply (L_left _ _ _ _ _ H)|]. cbv beta. eauto. }
    assert (Hright : sv (n <- mcr ;; lift (move_cursor_right E n) ;;; pop_mode_after_movement E Exclusive) v s (fun _ => P)).
    { apply sv_bind. eapply sv_mcr; [exact H|]. intros n _ _. apply Hex. eapply safe_mono; [apply (L_right _ _ _ _ _ H)|]. cbv beta. eauto. }
    assert (Hmode : forall m, (exists m', m = MMoveToChar m') \/ m = MG -> sv (set_mode E m) v s (fun _ => P)).
    { intros m Hm. eapply sv_set_mode; [exact H|destruct Hm as [[m' ->]| ->]; discriminate|]. intros s' c' H' _.
      assert (Hm2 : is_insert m = false) by (destruct Hm as [[m' ->]| ->]; reflexivity).
      unfold enter_mode_fresh. rewrite Hm2. split; [apply H'|]. unfold enter_mode. vsimp. split.
      - destruct Hl as [L1 L2]. split; [exact L1|]. intros _. vsimp. apply L2. exists d. rewrite Hst. left. reflexivity.
      - intros d' b' K4 K5. cbn [v_stack vset_stack vset_reset In] in K4. destruct K4 as [K4|K4]; [destruct Hm as [[m' ->]| ->]; discriminate|].
        rewrite (Hdd d' K4). destruct (L_cur _ _ _ _ H') as [b2 [Hb2 [Eb2 _]]]. rewrite K5 in Hb2. injection Hb2 as <-. rewrite Eb2. exact Hd. }
    assert (Hword : forall en ws r, sv (v <- getk ;;
        lift (if en : bool then vi_move_word_end E ws r (move_count v) else vi_move_word E ws r (move_count v)) ;;;
        pop_mode_after_movement E Exclusive) v s (fun _ => P)).
    { intros en ws r. apply sv_getk, Hex. destruct en.
      - eapply safe_mono; [apply (L_word_end ws r _ _ _ _ _ H)|]. cbv beta. intros ? s' [c' K]. eauto.
      - eapply safe_mono; [apply (L_word ws r _ _ _ _ _ H)|]. cbv beta. intros ? s' [c' [K _]]. eauto. }
    assert (Hst0 : sv (lift (move_cursor_to_start_of_line E) ;;; pop_mode_after_movement E Exclusive) v s (fun _ => P))
      by (apply Hex; eapply safe_mono; [apply (L_start _ _ _ _ H)|]; cbv beta; eauto).
    assert (Hend : sv (lift (move_cursor_to_end_of_line E) ;;; pop_mode_after_movement E Exclusive) v s (fun _ => P))
      by (apply Hex; eapply safe_mono; [apply (L_end _ _ _ _ H)|]; cbv beta; eauto).
    assert (Hdig : forall f, sv (modk (fun v => vset_count (f v) v)) v s (fun _ => P)).
    { intro f. apply sv_modk1. eapply Hkeep; [exact H|reflexivity|exact Hl]. }
    assert (Hmtc : forall m, (goes_right m v k -> c < length t) -> sv (vi_move_to_char E k m) v s (fun _ => P)).
    { intros m Hm. eapply sv_move_to_char; [exact H|exact Hsh|exact Hmv|exact Hl|exact Hk|exact Hlc| |].
      - intros d' K. rewrite (Hdd d' K). exact Hd.
      - intros K _. apply Hm. exact K. }
    unfold vi_normal. destruct k as [x|x|x| | | | | | | | | | |]; try contradiction; try exact Hleft; try exact Hright.
    2: { apply sv_lift. eapply safe_mono; [apply (L_start _ _ _ _ H)|]. cbv beta. intros ? s' K. eapply Hkeep; [exact K|reflexivity|exact Hl]. }
    2: { apply sv_lift. eapply safe_mono; [apply (L_end _ _ _ _ H)|]. cbv beta. intros ? s' K. eapply Hkeep; [exact K|reflexivity|exact Hl]. }
    unfold delete_char in Hkey. cbn [str In] in Hkey.
    repeat match goal with H : _ \/ _ |- _ => destruct H as [<-|H] end; [..|contradiction];
      repeat (match goal with
      | |- sv (if ?b then _ else _) _ _ _ =>
          let b' := eval vm_compute in b in
          match b' with true => change b with true | false => change b with false end
      end; cbv iota);
      try solve [exact Hleft|exact Hright|apply Hmode; eauto|exact (Hword false false true)|exact (Hword false true true)|exact (Hword true false true)
        |exact (Hword true true true)|exact (Hword true false false)|exact (Hword true true false)|exact Hst0|exact Hend
        |apply Hmtc; intro K; apply Hr; first [left; split; [reflexivity|exact K]|right; split; [reflexivity|exact K]]
        |apply sv_getk; match goal with |- sv (if ?b then _ else _) _ _ _ => destruct b end; [exact Hst0|apply Hdig]].
  Qed.
  End Env.
End Safe.
