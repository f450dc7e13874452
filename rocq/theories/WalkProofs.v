(** Walking through the history with Up and Down (C73). *)
From Verif Require Import Base BufferModel BufferSpec UtilModel UtilSpec UtilProofs HistoryModel HistorySpec HistoryProofs EditorState EditorModel
  KeymapModel ViModel MonadLemmas EditorLemmas EditorSpec BrowseSpec WalkSpec ViEffects ViModes ViRepeat CursorProofs EditorProofs TextProofs
  SuggestProofs BrowseProofs PinProofs.
Local Open Scope monad_scope.

(** * No place is left behind on the new line *)
Section Inv.
  Variable h : history.
  Hypothesis Hshare : h_share h = false.
  Definition inv (s : ed) : Prop :=
    ed_history s = h /\
    (is_search s = false -> ed_loc s = None \/ data (ed_new s) = [] \/ buffers h = [] -> ed_subloc s = None).
  Definition invr (s s' : ed) : Prop := inv s -> inv s'.
  Lemma invr_refl : refl invr. Proof using. intros s H. exact H. Qed.
  Lemma invr_trans : trans invr. Proof using. intros a b c H1 H2 H. auto. Qed.
  Lemma invr_pin : forall s s', pin s s' -> invr s s'.
  Proof using.
    intros s s' [H1 H2] [I1 I2]. split; [congruence|]. intros Hs Hc. destruct (is_search s) eqn:E; [auto|].
    destruct H2 as [H2 H3]. pose proof (pos_loc _ _ H2) as HL. unfold pos in H2. assert (Hsub : ed_subloc s' = ed_subloc s) by congruence.
    rewrite Hsub. apply I2; [reflexivity|]. destruct (ed_loc s) eqn:L; [|auto].
    right. destruct Hc as [Hc|[Hc|Hc]]; [congruence| |auto]. left. rewrite <- Hc. symmetry. apply H3. discriminate.
  Qed.
  Lemma keeps_inv : forall {A} (m : ME A), keeps pin m -> keeps invr m.
  Proof using. intros A m H s. specialize (H s). destruct (m s); auto; apply invr_pin; exact H. Qed.
  Lemma keeps_invK : forall {K A} (m : MK K A), keeps pinK m -> keeps (on_ed invr) m.
  Proof using. intros K A m H x. specialize (H x). destruct (m x); auto; apply invr_pin; exact H. Qed.
  Lemma inv_clear : forall s, invr s (clear_search s).
  Proof using. intros s [H1 _]. split; [exact H1|]. intros _ _. reflexivity. Qed.
  Lemma inv_fresh : forall s, inv s -> freshen_history s = s.
  Proof using Hshare. intros s [H1 _]. unfold freshen_history. rewrite H1, Hshare. reflexivity. Qed.
  Lemma inv_freshen : forall s, invr s (freshen_history s).
  Proof using Hshare. intros s H. rewrite (inv_fresh s H). exact H. Qed.

  Ltac ki1 :=
    cbv beta zeta;
    match goal with
    | |- keeps _ (modify _) => let s := fresh "s" in apply keeps_modify; intro s; cbv beta;
        first [solve [apply invr_pin; pnd] | idtac]
    | |- keeps _ (bind _ _) => apply (keeps_bind _ invr_trans); [|intro]
    | |- keeps _ (ret _) => apply (keeps_ret _ invr_refl)
    | |- keeps _ (liftr _) => apply (keeps_liftr _ invr_refl)
    | |- keeps _ get => apply (keeps_get _ invr_refl)
    | |- keeps _ (gets _) => apply (keeps_gets _ invr_refl)
    | |- keeps _ (when _ _) => apply (keeps_when _ invr_refl)
    | H : _ |- keeps _ _ => solve [apply H]
    | |- keeps _ (match ?x with _ => _ end) => destruct x
    | |- keeps _ _ => solve [apply keeps_inv; auto with brw]
    end.
  Ltac kbi := repeat ki1.

  Lemma i_clear : forall E, keeps invr (clear E).
  Proof using.
    intro E. unfold clear. kbi.
    apply invr_trans with (set_tcl 1 (set_cbuf (ed_cbuf s ++ [TClearAll; TGoto11]) s)); [apply invr_pin; pnd|apply inv_clear].
  Qed.
  Lemma i_accept : forall E, keeps invr (accept_autosuggestion E).
  Proof using. intro E. unfold accept_autosuggestion. kbi. apply inv_clear. Qed.
  Lemma i_search : forall E b, keeps invr (search E b).
  Proof using Hshare.
    intros E b. unfold search. kbi. destruct (negb (is_search s)).
    - apply invr_trans with (freshen_history s); [apply inv_freshen|]. intros [H1 H2]. split; [exact H1|].
      unfold refresh_search, is_search. edsimp. destruct b; discriminate.
    - unfold search_step. destruct (ed_subset s); [apply invr_refl|]. destruct (ed_subloc s) as [p|] eqn:L; intros [H1 H2]; (split; [exact H1|]).
      + intros Hs Hc. specialize (H2 Hs Hc). congruence.
      + intros _ _. reflexivity.
  Qed.
  Definition invo {A} (o : out ed A) : Prop := match o with ORet _ s' => inv s' | OErr _ s' => inv s' | _ => True end.
  Lemma keeps_of : forall {A} (m : ME A), (forall s, inv s -> invo (m s)) -> keeps invr m.
  Proof using. intros A m H s. specialize (H s). destruct (m s); auto. Qed.
  Lemma of_keeps : forall {A} (m : ME A) s, keeps invr m -> inv s -> invo (m s).
  Proof using. intros A m s H Hi. specialize (H s). unfold invo. destruct (m s); auto. Qed.
  Lemma inv_end : forall E s, inv s -> invo (move_cursor_to_end_of_line E s).
  Proof using. intros E s H. apply of_keeps; [apply keeps_inv; auto with brw|exact H]. Qed.
  Lemma subset_some : forall d i l, index (get_history_subset h d) i = Val l -> buffers h <> [].
  Proof using.
    intros d i l H Hb. unfold get_history_subset, hist_len in H. rewrite Hb in H. cbn in H. unfold index in H. destruct i; discriminate.
  Qed.
  Lemma i_up : forall E, keeps invr (move_up E).
  Proof using Hshare.
    intro E. apply keeps_of. intros s Hi. unfold move_up. rewrite bind_get. destruct (is_search s) eqn:Es.
    { apply of_keeps; [apply i_search|exact Hi]. }
    rewrite bind_modify. cbv beta.
    assert (H1 : inv (set_hvalid false s)) by (revert Hi; apply invr_pin; pnd).
    rewrite (inv_fresh _ H1). set (s1 := set_hvalid false s) in *. assert (Es1 : is_search s1 = false) by exact Es. clearbody s1.
    rewrite bind_get. pose proof H1 as [I1 I2].
    destruct (0 <? num_chars (ed_new s1)) eqn:En.
    - apply Nat.ltb_lt in En. destruct (ed_subloc s1) as [i|] eqn:L.
      + destruct (0 <? i); [|apply inv_end; exact H1]. unfold bind, liftr. destruct (index (ed_subset s1) (i - 1)); [|exact I].
        unfold modify. apply inv_end. split; [exact I1|]. intros _ [Hc|[Hc|Hc]]; [discriminate| |].
        * exfalso. change (data (ed_new s1) = []) in Hc. unfold num_chars in En. rewrite Hc in En. cbn in En. lia.
        * exfalso. specialize (I2 Es1 (or_intror (or_intror Hc))). congruence.
      + cbv zeta. rewrite I1. unfold bind, modify, liftr.
        assert (H2 : inv (set_subset (get_history_subset h (ed_new s1)) s1)).
        { split; [exact I1|]. intros _ _. exact L. }
        destruct (get_history_subset h (ed_new s1)) as [|x sub] eqn:Esub; [apply inv_end; exact H2|].
        rewrite <- Esub in *. destruct (index _ _) as [l|] eqn:Ei; [|exact I].
        apply inv_end. split; [exact I1|]. intros _ [Hc|[Hc|Hc]]; [discriminate| |].
        * exfalso. change (data (ed_new s1) = []) in Hc. unfold num_chars in En. rewrite Hc in En. cbn in En. lia.
        * exfalso. revert Hc. eapply subset_some. exact Ei.
    - apply Nat.ltb_ge in En. assert (Hd : data (ed_new s1) = []) by (unfold num_chars in En; destruct (data (ed_new s1)); [reflexivity|cbn in En; lia]).
      assert (L : ed_subloc s1 = None) by (apply I2; auto).
      assert (Z : forall o, inv (set_loc o s1)) by (intro o; split; [exact I1|]; intros _ _; exact L).
      destruct (ed_loc s1) as [i|]; [destruct (0 <? i)|destruct (negb _)]; unfold bind, modify, ret; apply inv_end; auto.
  Qed.
  Lemma i_down : forall E, keeps invr (move_down E).
  Proof using Hshare.
    intro E. apply keeps_of. intros s Hi. unfold move_down. rewrite bind_get. destruct (is_search s) eqn:Es.
    { apply of_keeps; [apply i_search|exact Hi]. }
    rewrite bind_modify. cbv beta.
    assert (H1 : inv (set_hvalid false s)) by (revert Hi; apply invr_pin; pnd).
    set (s1 := set_hvalid false s) in *. assert (Es1 : is_search s1 = false) by exact Es. clearbody s1.
    rewrite bind_get. pose proof H1 as [I1 I2].
    destruct (0 <? num_chars (ed_new s1)) eqn:En.
    - apply Nat.ltb_lt in En. destruct (ed_subloc s1) as [i|] eqn:L; [|apply inv_end; exact H1].
      unfold bind, liftr. destruct (sub_chk _ _) as [m|]; [|exact I]. destruct (i <? m).
      + destruct (index (ed_subset s1) (i + 1)); [|exact I].
        unfold modify. apply inv_end. split; [exact I1|]. intros _ [Hc|[Hc|Hc]]; [discriminate| |].
        * exfalso. change (data (ed_new s1) = []) in Hc. unfold num_chars in En. rewrite Hc in En. cbn in En. lia.
        * exfalso. specialize (I2 Es1 (or_intror (or_intror Hc))). congruence.
      + unfold modify. apply inv_end. split; [exact I1|]. intros _ _. reflexivity.
    - apply Nat.ltb_ge in En. assert (Hd : data (ed_new s1) = []) by (unfold num_chars in En; destruct (data (ed_new s1)); [reflexivity|cbn in En; lia]).
      assert (L : ed_subloc s1 = None) by (apply I2; auto).
      assert (Z : forall o, inv (set_loc o s1)) by (intro o; split; [exact I1|]; intros _ _; exact L).
      assert (Z2 : forall s2, inv s2 -> inv (set_fresh false s2)) by (intros s2; apply invr_pin; pnd).
      unfold bind, liftr, modify. destruct (ed_loc s1) as [i|]; [destruct (sub_chk _ _) as [m|]; [destruct (i <? m)|exact I]|]; apply inv_end; auto.
      split; [exact I1|]. intros _ _. exact L.
  Qed.
  Lemma i_start : forall E, keeps invr (move_to_start_of_history E).
  Proof using.
    intro E. apply keeps_of. intros s Hi. unfold move_to_start_of_history. rewrite bind_modify. cbv beta.
    assert (H1 : inv (set_hvalid false s)) by (revert Hi; apply invr_pin; pnd). set (s1 := set_hvalid false s) in *. clearbody s1.
    rewrite bind_get. pose proof H1 as [I1 I2]. rewrite I1. unfold hist_is_empty. destruct (buffers h) eqn:Eb.
    - change (invo (display E (set_loc None s1))). apply of_keeps; [apply keeps_inv; auto with brw|]. split; [exact I1|]. intros Hs _. apply I2; [exact Hs|auto].
    - change (invo (move_cursor_to_end_of_line E (set_loc (Some 0) s1))). apply inv_end. split; [exact I1|]. intros Hs Hc. apply I2; [exact Hs|].
      destruct Hc as [Hc|[Hc|Hc]]; [discriminate|auto|congruence].
  Qed.
  Lemma i_newline : forall E, keeps invr (handle_newline E).
  Proof using. intro E. pose proof i_accept. pose proof inv_clear. unfold handle_newline. kbi; auto using inv_clear. Qed.

  (** Key maps *)
  Notation invK := (on_ed invr) (only parsing).
  Lemma onr : forall K, refl (on_ed (K := K) invr). Proof using. intros K x. apply invr_refl. Qed.
  Lemma ont : forall K, trans (on_ed (K := K) invr). Proof using. intros K x y z. apply invr_trans. Qed.
  Ltac kki1 :=
    cbv beta zeta;
    match goal with
    | |- keeps _ (bind _ _) => apply (keeps_bind _ (ont _)); [|intro]
    | |- keeps _ (ret _) => apply (keeps_ret _ (onr _))
    | |- keeps _ (fail _) => apply (keeps_fail _ (onr _))
    | |- keeps _ (pan _) => apply keeps_pan
    | |- keeps _ (liftr _) => apply (keeps_liftr _ (onr _))
    | |- keeps _ (when _ _) => apply (keeps_when _ (onr _))
    | H : forall k, keeps _ _ |- keeps _ _ => solve [apply H]
    | H : forall E k, keeps _ _ |- keeps _ _ => solve [apply H]
    | |- keeps _ (lift _) => apply on_lift; kbi
    | |- keeps _ getk => apply (on_getk _ invr_refl)
    | |- keeps _ gete => apply (on_gete _ invr_refl)
    | |- keeps _ (modk _) => apply (on_modk _ invr_refl)
    | |- keeps _ (mod_ed _) => let s := fresh "s" in apply on_mod_ed; intro s; cbv beta; first [solve [apply invr_pin; pnd] | idtac]
    | |- keeps _ (Nloop _ _) => apply (keeps_Nloop _ (onr _) (ont _))
    | |- keeps _ (mfor _ _) => apply (keeps_mfor _ (onr _) (ont _)); intro
    | |- keeps _ (match ?x with _ => _ end) => destruct x
    | |- keeps _ _ => solve [apply keeps_invK; auto with brw]
    end.
  Ltac kki := pose proof i_up; pose proof i_down; pose proof i_clear; pose proof i_accept; pose proof i_search; pose proof i_newline; repeat kki1.
  Lemma i_handle : forall {K} (core : env -> key -> MK K unit) E k,
    (forall k', (k' = k \/ k' = KBackspace) -> keeps invK (core E k')) -> keeps invK (handle_key core E k).
  Proof using Hshare.
    intros K core E k Hc [x s]. unfold handle_key, bind at 1. cbn [gete].
    match goal with |- match ?m (x, s) with _ => _ end => assert (G : keeps invK m); [|exact (G (x, s))] end.
    apply (keeps_bind _ (ont _)); [intro y; destruct (cur_buf s); [apply onr|exact I]|intro em].
    apply (keeps_bind _ (ont _)); [|intro; kki].
    set (k0 := match k with KCtrl c => if is_char c "h" then KBackspace else k | _ => k end).
    assert (Hk : k0 = k \/ k0 = KBackspace) by (unfold k0; destruct k; auto; destruct (is_char c "h"); auto).
    clearbody k0. pose proof (Hc k0 Hk) as Hk0. clear Hc Hk.
    assert (O : keeps invK (core E k0 ;;; mod_ed skip_completions_hint ;;; ret false)).
    { apply (keeps_bind _ (ont _)); [exact Hk0|intro]. kki. }
    cbv zeta. destruct k0; try exact O; kki; try exact Hk0.
    all: intro y; destruct (cursor_is_at_end_of_line s); [apply onr|exact I].
  Qed.
  Lemma i_emacs_core : forall E k, k <> KAlt (ch ">") -> keeps invK (emacs_core E k).
  Proof using Hshare.
    intros E k Hk. unfold emacs_core. pose proof i_start. pose proof p_last_arg.
    destruct k; try (kki; unfold emacs_ctrl; kki; fail).
    - apply (keeps_bind _ (ont _)); [kki|intro]. unfold emacs_alt.
      destruct (is_char c ">") eqn:Ec; [apply N.eqb_eq in Ec; subst c; congruence|]. kki.
    - apply (keeps_bind _ (ont _)); [kki|intro]. apply on_lift. unfold emacs_ctrl. pose proof i_up. pose proof i_down. pose proof i_clear. kbi.
  Qed.
  Lemma i_common : forall E k, keeps invK (vi_common E k).
  Proof using Hshare. intros E k. unfold vi_common. kki. Qed.
  Lemma i_insert : forall rec E k, (forall k, keeps invK (rec k)) -> keeps invK (vi_insert rec E k).
  Proof using Hshare. intros rec E k Hr. pose proof i_common. unfold vi_insert, push_last. destruct k; kki. Qed.
  Lemma i_normal : forall rec E k, (forall k, keeps invK (rec k)) -> keeps invK (vi_normal rec E k).
  Proof using Hshare.
    intros rec E k Hr. destruct (p_nav k) eqn:N.
    - destruct k; try discriminate; cbn [p_nav] in N.
      + apply orb_prop in N as [N|N]; apply N.eqb_eq in N; subst c; unfold vi_normal; cbn; kki.
      + apply N.eqb_eq in N. subst c. pose proof i_common. unfold vi_normal. cbn. kki.
      + unfold vi_normal. kki.
      + unfold vi_normal. kki.
    - destruct (key_dec k (kch ".")) as [-> |D]; [|apply keeps_invK, p_normal; assumption].
      unfold vi_normal, vi_repeat. cbn. kki.
  Qed.
  Lemma i_delete : forall rec E k, keeps invK (vi_delete_or_change rec E k).
  Proof using. intros rec E k. apply keeps_invK, p_delete. Qed.
  Lemma i_core_fuel : forall f E k, keeps invK (vi_core_fuel f E k).
  Proof using Hshare.
    induction f as [|f IH]; intros E k; [intro; exact I|]. cbn [vi_core_fuel]. apply (keeps_bind _ (ont _)); [kki|intro v].
    destruct (vmode_of v); [apply i_insert; apply IH|apply i_normal; apply IH|apply keeps_invK; auto with brw|apply i_delete|apply keeps_invK; auto with brw|apply keeps_invK; auto with brw|apply keeps_pan].
  Qed.
  Lemma i_vi_core : forall E k, keeps invK (vi_core E k).
  Proof using Hshare. intros E k. unfold vi_core. apply (keeps_bind _ (ont _)); [kki|intro v]. apply i_core_fuel. Qed.

  (** Sessions *)
  Lemma i_run : forall {K} (core : env -> key -> MK K unit) (P : key -> Prop) l,
    (forall E k, P k -> keeps invK (handle_key core E k)) -> Forall (fun ek => P (snd ek)) l -> keeps invK (run_keys core l).
  Proof using Hshare.
    intros K core P l Hc Hl. induction Hl as [|[E k] l Hk _ IH]; cbn [run_keys]; [apply (keeps_ret _ (onr _))|].
    apply (keeps_bind _ (ont _)); [apply Hc; exact Hk|intros [|]]; [apply (keeps_ret _ (onr _))|exact IH].
  Qed.
End Inv.

(** * Keys that leave the place alone *)
Lemma at_end_false : forall s b, cur_buf s = Val b -> ed_cursor s + (if ed_noeol s then 1 else 0) < num_chars b ->
  cursor_is_at_end_of_line s = Val false.
Proof.
  intros s b Hb H. unfold cursor_is_at_end_of_line. rewrite Hb. cbn [rbind]. destruct (ed_noeol s).
  - unfold sub_chk. destruct (1 <=? num_chars b) eqn:L; [|apply Nat.leb_gt in L; lia]. cbn [rbind]. f_equal. apply Nat.eqb_neq. lia.
  - f_equal. apply Nat.eqb_neq. lia.
Qed.
Definition shown_key (k : key) : key := match k with KCtrl c => if is_char c "h" then KBackspace else k | _ => k end.
Lemma quiet_handle : forall {K} (R : ed -> ed -> Prop), refl R -> trans R -> (forall s, R s (set_hint None s)) ->
  forall (core : env -> key -> MK K unit) E k x d y,
  quiet k (snd x) -> (k = KChar c_tab -> keeps R (complete E)) -> after (on_ed R) (core E (shown_key k)) x ->
  handle_key core E k x = ORet d y -> R (snd x) (snd y).
Proof.
  intros K R Rr Rt Rh core E k [kk s] d y Q Hc H Hk. unfold handle_key, bind at 1 in Hk. cbn [gete] in Hk.
  unfold bind at 1 in Hk. destruct (cur_buf s) as [b|] eqn:Hb; [|discriminate]. cbv beta iota zeta in Hk.
  fold (shown_key k) in Hk.
  assert (O : after (on_ed R) (core E (shown_key k) ;;; mod_ed skip_completions_hint ;;; ret false) (kk, s)).
  { apply after_bind; [apply (on_ed_trans _ Rt)|exact H|]. intro. apply (keeps_bind _ (on_ed_trans _ Rt)); [apply on_mod_ed; exact Rh|].
    intro. apply (keeps_ret _ (on_ed_refl _ Rr)). }
  assert (F : forall m : MK K bool, after (on_ed R) m (kk, s) ->
    (done <- m ;; if e_wok E then ret done else fail EOther) (kk, s) = ORet d y -> R s (snd y)).
  { intros m Hm Hr. unfold bind in Hr. unfold after in Hm. destruct (m (kk, s)) as [a z| | |]; try discriminate.
    destruct (e_wok E); [|discriminate]. injection Hr as _ <-. exact Hm. }
  cbn [snd] in *. destruct k; cbn [quiet] in Q; try (eapply F; [exact O|exact Hk]).
  - destruct (N.eqb c c_tab) eqn:Ec.
    + apply N.eqb_eq in Ec. subst c. eapply F; [|exact Hk].
      apply after_bind; [apply (on_ed_trans _ Rt)| |intro; apply (keeps_ret _ (on_ed_refl _ Rr))].
      exact (on_lift R _ (Hc eq_refl) (kk, s)).
    + cbn [shown_key] in Hk. rewrite Ec in Hk. apply N.eqb_neq in Q. rewrite Q in Hk. eapply F; [exact O|exact Hk].
  - destruct Q as [Q1 Q2]. cbn [shown_key] in *. destruct (is_char c "h") eqn:Eh; [eapply F; [exact O|exact Hk]|].
    assert (Z : forall x, In (ch x) (str "lrsc") -> is_char c x = false).
    { intros x Hx. apply is_char_ne. intros ->. contradiction. }
    rewrite (Z "c"%string), (Z "r"%string), (Z "s"%string) in Hk; try (cbn; tauto).
    destruct (is_char c "d" && buf_is_empty b).
    { unfold bind, fail in Hk. destruct (lift (handle_newline E) (kk, s)); discriminate. }
    destruct (is_char c "f" && showing_autosuggestion s) eqn:Ef; [|eapply F; [exact O|exact Hk]].
    apply andb_prop in Ef as [E1 E2]. apply N.eqb_eq in E1. specialize (Q2 E1). unfold showing_autosuggestion in E2. rewrite Q2 in E2. discriminate.
  - cbn [shown_key] in *. destruct (showing_autosuggestion s) eqn:Es; [|eapply F; [exact O|exact Hk]].
    destruct Q as [Q|Q]; [unfold showing_autosuggestion in Es; rewrite Q in Es; discriminate|].
    eapply F; [|exact Hk]. unfold after, bind at 1. rewrite (at_end_false s b Hb (Q b Hb)). exact O.
Qed.

Lemma bind_assoc : forall {S A B C} (m : M S A) (f : A -> M S B) (g : B -> M S C) s,
  bind (bind m f) g s = bind m (fun a => bind (f a) g) s.
Proof. intros. unfold bind. destruct (m s); reflexivity. Qed.
Lemma bind_ret : forall {S A B} (a : A) (k : A -> M S B) s, bind (ret a) k s = k a s.
Proof. reflexivity. Qed.
Lemma bind_liftr_val : forall {S A B} (a : A) (k : A -> M S B) s, bind (liftr (Val a)) k s = k a s.
Proof. reflexivity. Qed.

(** A key that walks reaches the key map. *)
Definition walks (k : key) : Prop :=
  match k with KUp | KDown => True | KChar c => c <> c_nl /\ c <> c_tab | KCtrl c => In c (str "pn") | _ => False end.
Lemma walks_handle : forall {K} (core : env -> key -> MK K unit) E k x d y, walks k -> handle_key core E k x = ORet d y ->
  d = false /\ exists z, core E k x = ORet tt z /\ y = (fst z, set_hint None (snd z)).
Proof.
  intros K core E k [kk s] d y W H. unfold handle_key, bind at 1 in H. cbn [gete] in H.
  unfold bind at 1 in H. destruct (cur_buf s) as [b|] eqn:Hb; [|discriminate]. cbv beta iota zeta in H.
  assert (F : (done <- (core E k ;;; mod_ed skip_completions_hint ;;; ret false) ;; if e_wok E then ret done else fail EOther) (kk, s) = ORet d y ->
    d = false /\ exists z, core E k (kk, s) = ORet tt z /\ y = (fst z, set_hint None (snd z))).
  { unfold bind. destruct (core E k (kk, s)) as [[] [v1 s1]| | |]; try discriminate. cbn. destruct (e_wok E); [|discriminate].
    intro Q. injection Q as <- <-. split; [reflexivity|]. exists (v1, s1). auto. }
  destruct k; cbn [walks] in W; try contradiction; try (apply F; exact H).
  - destruct W as [W1 W2]. apply N.eqb_neq in W1, W2. rewrite W1, W2 in H. apply F; exact H.
  - cbn in W. destruct W as [<-|[<-|[]]]; apply F; exact H.
Qed.

(** * What is offered *)
Lemma subset_of : forall h b, get_history_subset h b = get_history_subset h (buf_of (data b)).
Proof. reflexivity. Qed.
Lemma filter_at : forall (f : buffer -> bool) (l pre : list buffer),
  map (fun i => nth i (map data (pre ++ l)) [])
    (filter (fun i => match nth_error (pre ++ l) i with Some b => f b | None => false end) (seq (length pre) (length l))) =
  map data (filter f l).
Proof.
  intros f l. induction l as [|b l IH]; intro pre; [reflexivity|]. cbn [length seq filter].
  assert (E : nth_error (pre ++ b :: l) (length pre) = Some b).
  { rewrite nth_error_app2, Nat.sub_diag by lia. reflexivity. }
  specialize (IH (pre ++ [b])). rewrite <- app_assoc in IH. cbn [app] in IH. rewrite app_length, Nat.add_1_r in IH.
  rewrite E. destruct (f b); cbn [map]; [|exact IH]. rewrite IH. f_equal.
  rewrite map_app, app_nth2; rewrite map_length; [|lia]. rewrite Nat.sub_diag. reflexivity.
Qed.
Lemma selects_data : forall (P : text -> Prop) (f : buffer -> bool) l A, (forall b, f b = true <-> P (data b)) ->
  selects P (map data l) A -> A = map data (filter f l).
Proof.
  intros P f l A H HA. eapply selects_det; [exact HA|]. clear HA A. induction l as [|b l IH]; cbn; [constructor|].
  specialize (H b). destruct (f b) eqn:E; cbn; constructor; auto; [apply H; reflexivity|]. rewrite <- H. discriminate.
Qed.
Lemma offered_subset : forall h t L, t <> [] -> offered (texts h) t L ->
  L = rev (map (fun i => nth i (texts h) []) (get_history_subset h (buf_of t))).
Proof.
  intros h t L Ht H. unfold offered in H. destruct t as [|c t0]; [congruence|]. set (t := c :: t0) in *.
  destruct H as [A [B [HA [HB ->]]]]. unfold get_history_subset. cbv zeta. rewrite map_app, rev_app_distr. unfold hist_len, texts in *.
  pose proof (filter_at (fun b => starts_with b (buf_of t)) (buffers h) []) as F1. cbn [app length] in F1. rewrite F1.
  pose proof (filter_at (fun b => contains b (buf_of t) && negb (starts_with b (buf_of t)) && negb (buf_eqb b (buf_of t))) (buffers h) []) as F2.
  cbn [app length] in F2. rewrite F2. f_equal; f_equal.
  - eapply selects_data; [|exact HA]. intro b. rewrite starts_with_iff. cbn [data buf_of]. unfold t. intuition congruence.
  - eapply selects_data; [|exact HB]. intro b. rewrite !andb_true_iff, !negb_true_iff, contains_iff. cbn [data buf_of].
    pose proof (starts_with_iff b (buf_of t)) as S1. pose proof (buf_eqb_iff b (buf_of t)) as S2. cbn [data buf_of] in S1, S2.
    destruct (starts_with b (buf_of t)), (buf_eqb b (buf_of t)); unfold t in *; intuition (try congruence).
Qed.

Definition endc (noeol : bool) (m : nat) : nat := if noeol then m - 1 else m.
Lemma clamp_end : forall noeol m, clamp_cursor noeol m m = endc noeol m.
Proof.
  intros noeol m. unfold clamp_cursor, endc. rewrite Nat.ltb_irrefl, Nat.eqb_refl, andb_true_r. destruct noeol; [|reflexivity].
  destruct m; cbn; lia.
Qed.

Lemma clamp_again : forall noeol m, clamp_cursor true m (endc noeol m) = m - 1.
Proof.
  intros noeol m. unfold clamp_cursor, endc. destruct noeol.
  - assert (m <? m - 1 = false) as -> by (apply Nat.ltb_ge; lia). destruct (m - 1 =? m) eqn:C; [|rewrite andb_false_r; reflexivity].
    apply Nat.eqb_eq in C. destruct m; [reflexivity|lia].
  - rewrite Nat.ltb_irrefl, Nat.eqb_refl. destruct m; cbn; lia.
Qed.

Section Walk.
  Variables (h : history) (t : text) (L : list text).
  Hypothesis Hshare : h_share h = false.
  Hypothesis HL : offered (texts h) t L.

  Definition idx (p : nat) : option nat :=
    match p with
    | O => None
    | S _ => match t with
             | [] => Some (length (buffers h) - p)
             | _ => nth_error (get_history_subset h (buf_of t)) (length L - p)
             end
    end.
  Definition sub := get_history_subset h (buf_of t).
  Lemma sub_len : t <> [] -> length sub = length L.
  Proof using HL. intro Ht. rewrite (offered_subset h t L Ht HL), rev_length, map_length. reflexivity. Qed.
  Lemma all_len : t = [] -> length (buffers h) = length L.
  Proof using HL. intro Ht. pose proof HL as HO. rewrite Ht in HO. cbn in HO. rewrite HO, rev_length. unfold texts. rewrite map_length. reflexivity. Qed.
  Lemma idx_text : forall p, 0 < p <= length L -> exists l b, idx p = Some l /\ nth_error (buffers h) l = Some b /\ data b = nth (p - 1) L [].
  Proof using HL.
    intros p Hp. assert (D : t = [] \/ t <> []) by (destruct t; [left; reflexivity|right; discriminate]). destruct p as [|p]; [lia|]. destruct D as [Ht|Ht].
    - pose proof (all_len Ht) as HN. pose proof HL as HO. rewrite Ht in HO. cbn in HO. unfold idx. rewrite Ht.
      destruct (nth_error (buffers h) (length (buffers h) - S p)) as [b|] eqn:Eb; [|apply nth_error_None in Eb; lia].
      exists (length (buffers h) - S p), b. split; [reflexivity|]. split; [exact Eb|]. rewrite HO.
      rewrite rev_nth by (unfold texts; rewrite map_length; lia). unfold texts. rewrite map_length.
      replace (length (buffers h) - S (S p - 1)) with (length (buffers h) - S p) by lia.
      symmetry. apply nth_error_nth. rewrite nth_error_map, Eb. reflexivity.
    - pose proof (sub_len Ht) as HN. pose proof (offered_subset h t L Ht HL) as HO. fold sub in HO.
      assert (Hx : idx (S p) = nth_error sub (length L - S p)) by (unfold idx, sub; destruct t; [congruence|reflexivity]). rewrite Hx.
      destruct (nth_error sub (length L - S p)) as [l|] eqn:El; [|apply nth_error_None in El; lia].
      exists l. assert (Hin : In l sub) by (eapply nth_error_In; exact El).
      assert (Hb : exists b, nth_error (buffers h) l = Some b).
      { unfold sub, get_history_subset in Hin. cbv zeta in Hin. apply in_app_iff in Hin as [Hin|Hin]; apply filter_In in Hin as [_ Hin];
          destruct (nth_error (buffers h) l); eauto; discriminate. }
      destruct Hb as [b Hb]. exists b. split; [reflexivity|]. split; [exact Hb|]. rewrite HO.
      rewrite rev_nth by (rewrite map_length; rewrite HO, rev_length, map_length in Hp; lia). rewrite map_length.
      assert (E1 : length sub - S (S p - 1) = length L - S p) by lia. rewrite E1.
      symmetry. apply nth_error_nth. rewrite nth_error_map, El. cbn [option_map]. f_equal. apply nth_error_nth. unfold texts. rewrite nth_error_map, Hb. reflexivity.
  Qed.

  (** The editor stands at place [p]. *)
  Definition at_ (p : nat) (s : ed) : Prop :=
    ed_history s = h /\ is_search s = false /\ data (ed_new s) = t /\ p <= length L /\ ed_loc s = idx p /\
    (t <> [] -> match p with O => ed_subloc s = None | S _ => ed_subset s = sub /\ ed_subloc s = Some (length L - p) end).
  Lemma at_pin : forall p s s', at_ p s -> pin s s' -> (p = 0 -> samen s s') -> at_ p s'.
  Proof using HL.
    intros p s s' [A1 [A2 [A3 [A4 [A5 A6]]]]] [H1 H2] Hn. rewrite A2 in H2. destruct H2 as [H2 H3].
    pose proof (pos_search _ _ H2) as P1. pose proof (pos_loc _ _ H2) as P2. unfold pos in H2.
    assert (P3 : ed_subloc s' = ed_subloc s) by congruence. assert (P4 : ed_subset s' = ed_subset s) by congruence.
    split; [congruence|]. split; [congruence|]. split.
    { destruct p as [|p]; [rewrite (Hn eq_refl); exact A3|]. rewrite H3; [exact A3|]. rewrite A5.
      destruct (idx_text (S p) ltac:(lia)) as [l [b [El _]]]. congruence. }
    split; [exact A4|]. split; [congruence|]. rewrite P3, P4. exact A6.
  Qed.
  Definition text_at (p : nat) : text := nth p (t :: L) [].
  Lemma at_text : forall p s, at_ p s -> ed_hvalid s = false -> exists b, cur_buf s = Val b /\ data b = text_at p.
  Proof using HL.
    intros p s [A1 [A2 [A3 [A4 [A5 A6]]]]] Hv. unfold cur_buf. rewrite A5, Hv. destruct p as [|p].
    - cbn [idx]. exists (ed_new s). auto.
    - destruct (idx_text (S p) ltac:(lia)) as [l [b [El [Eb Ed]]]]. rewrite El, A1. unfold hist_get, index. rewrite Eb. exists b. split; [reflexivity|].
      unfold text_at. cbn [nth]. rewrite Ed. f_equal. lia.
  Qed.
  (** Both keys end with this. *)
  Lemma at_end : forall E p s u s', at_ p s -> ed_hvalid s = false -> move_cursor_to_end_of_line E s = ORet u s' ->
    at_ p s' /\ ed_hvalid s' = false /\ ed_noeol s' = ed_noeol s /\ line_is s' (text_at p) (endc (ed_noeol s) (length (text_at p))).
  Proof using HL.
    intros E p s u s' HA Hv H. destruct (at_text p s HA Hv) as [b [Hb Hd]]. pose proof HA as [_ [Hs _]].
    destruct (move_end_out _ _ _ _ _ Hs Hb H) as [g [tcl [cb [tty ->]]]]. rewrite clamp_end. unfold num_chars. rewrite Hd.
    split; [exact HA|]. split; [exact Hv|]. split; [reflexivity|]. exists b. split; [exact Hb|]. split; [exact Hd|reflexivity].
  Qed.
  Lemma num_nil : forall s, data (ed_new s) = t -> t = [] -> (0 <? num_chars (ed_new s)) = false.
  Proof using HL. intros s H Ht. unfold num_chars. rewrite H, Ht. reflexivity. Qed.
  Lemma num_cons : forall s, data (ed_new s) = t -> t <> [] -> (0 <? num_chars (ed_new s)) = true.
  Proof using HL. intros s H Ht. unfold num_chars. rewrite H. destruct t; [congruence|reflexivity]. Qed.
  Lemma t_dec : t = [] \/ t <> [].
  Proof using HL. destruct t; [left; reflexivity|right; discriminate]. Qed.
  Lemma idx_nil : forall p, t = [] -> idx (S p) = Some (length (buffers h) - S p).
  Proof using HL. intros p Ht. unfold idx. rewrite Ht. reflexivity. Qed.
  Lemma idx_cons : forall p, t <> [] -> idx (S p) = nth_error sub (length L - S p).
  Proof using HL. intros p Ht. unfold idx, sub. destruct t; [congruence|reflexivity]. Qed.
  Lemma at_nil : forall q s1 s2, ed_history s1 = h -> is_search s1 = false -> data (ed_new s1) = t -> t = [] -> q <= length L ->
    ed_history s2 = ed_history s1 -> is_search s2 = is_search s1 -> ed_new s2 = ed_new s1 -> ed_loc s2 = idx q -> at_ q s2.
  Proof using HL. intros q s1 s2 H1 H2 H3 H4 H5 K1 K2 K3 K4. repeat (split; [congruence|]). intro; contradiction. Qed.

  Lemma up_read : forall E p s u s', at_ p (freshen_history s) -> move_up E s = ORet u s' ->
    let q := Nat.min (length L) (S p) in
    at_ q s' /\ ed_hvalid s' = false /\ ed_noeol s' = ed_noeol s /\ line_is s' (text_at q) (endc (ed_noeol s) (length (text_at q))).
  Proof using HL.
    intros E p s0 u s' HA H q.
    assert (F1 : is_search s0 = is_search (freshen_history s0)) by (unfold freshen_history; destruct (_ && _); reflexivity).
    assert (F2 : ed_noeol s0 = ed_noeol (freshen_history s0)) by (unfold freshen_history; destruct (_ && _); reflexivity).
    assert (F3 : freshen_history (set_hvalid false s0) = set_hvalid false (freshen_history s0)).
    { unfold freshen_history. change (ed_history (set_hvalid false s0)) with (ed_history s0). change (ed_fresh (set_hvalid false s0)) with (ed_fresh s0).
      destruct (_ && _); reflexivity. }
    unfold move_up in H. rewrite bind_get, F1, (proj1 (proj2 HA)), bind_modify, F3 in H. rewrite F2. clear F1 F2 F3.
    revert HA H. generalize (freshen_history s0). clear s0. intros s HA H.
    pose proof HA as [A1 [A2 [A3 [A4 [A5 A6]]]]].
    rewrite bind_get in H. set (s1 := set_hvalid false s) in *.
    assert (Z : forall s2, at_ q s2 -> ed_hvalid s2 = false -> ed_noeol s2 = ed_noeol s -> move_cursor_to_end_of_line E s2 = ORet u s' ->
      at_ q s' /\ ed_hvalid s' = false /\ ed_noeol s' = ed_noeol s /\ line_is s' (text_at q) (endc (ed_noeol s) (length (text_at q)))).
    { intros s2 K1 K2 K3 K4. rewrite <- K3. apply (at_end E q s2 u s'); assumption. }
    assert (HA1 : at_ p s1) by exact HA.
    change (ed_loc s1) with (ed_loc s) in H. change (ed_history s1) with (ed_history s) in H. change (ed_subloc s1) with (ed_subloc s) in H.
    change (ed_subset s1) with (ed_subset s) in H. change (ed_new s1) with (ed_new s) in H.
    destruct t_dec as [Ht|Ht].
    - rewrite (num_nil s A3 Ht) in H. pose proof (all_len Ht) as HN. rewrite A5, A1 in H. destruct p as [|p].
      + cbn [idx] in H. unfold hist_is_empty, hist_len in H. destruct (buffers h) as [|b0 bs] eqn:Eb.
        * assert (Hq : q = 0) by (unfold q; cbn in HN; lia). cbn [negb nonempty] in H. rewrite bind_ret in H. apply (Z s1); auto. rewrite Hq. exact HA1.
        * assert (Hq : q = 1) by (unfold q; cbn in HN; lia). cbn [negb nonempty] in H. rewrite bind_modify in H. apply (Z _) in H; auto.
          apply (at_nil q s); auto; [unfold q; lia|]. rewrite Hq, idx_nil, Eb by exact Ht. reflexivity.
      + rewrite idx_nil in H by exact Ht. destruct (0 <? length (buffers h) - S p) eqn:C.
        * apply Nat.ltb_lt in C. rewrite bind_modify in H. apply (Z _) in H; auto.
          assert (Hq : q = S (S p)) by (unfold q; lia). apply (at_nil q s); auto; [unfold q; lia|].
          rewrite Hq, idx_nil by exact Ht. cbn. f_equal. lia.
        * apply Nat.ltb_ge in C. rewrite bind_ret in H. apply (Z s1); auto. replace q with (S p) by (unfold q; lia). exact HA1.
    - rewrite (num_cons s A3 Ht) in H. pose proof (sub_len Ht) as HN. specialize (A6 Ht). destruct p as [|p].
      + rewrite A6 in H. cbv zeta in H. rewrite subset_of, A1, A3 in H. fold sub in H. rewrite bind_assoc, bind_modify in H.
        destruct sub as [|i0 is] eqn:Es.
        * assert (Hq : q = 0) by (unfold q; cbn in HN; lia). rewrite bind_ret in H. apply (Z _) in H; auto. rewrite Hq.
          split; [exact A1|]. split; [exact A2|]. split; [exact A3|]. split; [lia|]. split; [exact A5|]. intros _. exact A6.
        * assert (Hq : q = 1) by (unfold q; cbn in HN; lia). rewrite <- Es in H, HN.
          destruct (idx_text 1 ltac:(cbn in *; rewrite Es in HN; cbn in HN; lia)) as [l [b [El _]]].
          pose proof El as El'. rewrite idx_cons in El' by exact Ht. rewrite <- HN in El'.
          assert (Hi : index sub (length sub - 1) = Val l) by (unfold index; rewrite El'; reflexivity).
          rewrite Hi, bind_assoc, bind_liftr_val, bind_modify in H. apply (Z _) in H; auto. rewrite Hq.
          split; [exact A1|]. split; [exact A2|]. split; [exact A3|]. split; [rewrite <- HN, Es; cbn; lia|]. split; [rewrite El; reflexivity|]. intros _.
          split; [reflexivity|]. cbn. rewrite <- HN. reflexivity.
      + destruct A6 as [A6 A7]. rewrite A7, A6 in H. destruct (0 <? length L - S p) eqn:C.
        * apply Nat.ltb_lt in C. assert (Hq : q = S (S p)) by (unfold q; lia).
          destruct (idx_text (S (S p)) ltac:(lia)) as [l [b [El _]]]. pose proof El as El'. rewrite idx_cons in El' by exact Ht.
          assert (Hi : index sub (length L - S p - 1) = Val l).
          { unfold index. replace (length L - S p - 1) with (length L - S (S p)) by lia. rewrite El'. reflexivity. }
          rewrite Hi, bind_assoc, bind_liftr_val, bind_modify in H. apply (Z _) in H; auto. rewrite Hq.
          split; [exact A1|]. split; [exact A2|]. split; [exact A3|]. split; [lia|]. split; [rewrite El; reflexivity|]. intros _.
          split; [exact A6|]. cbn. f_equal. lia.
        * apply Nat.ltb_ge in C. rewrite bind_ret in H. apply (Z s1); auto. replace q with (S p) by (unfold q; lia). exact HA1.
  Qed.
  Lemma up_step : forall E p s u s', at_ p s -> move_up E s = ORet u s' ->
    let q := Nat.min (length L) (S p) in
    at_ q s' /\ ed_hvalid s' = false /\ ed_noeol s' = ed_noeol s /\ line_is s' (text_at q) (endc (ed_noeol s) (length (text_at q))).
  Proof using HL Hshare.
    intros E p s u s' HA H. apply (up_read E p s u s'); [|exact H]. unfold freshen_history. rewrite (proj1 HA), Hshare. exact HA.
  Qed.
  Lemma down_step : forall E p s u s', at_ p s -> move_down E s = ORet u s' ->
    let q := p - 1 in
    at_ q s' /\ ed_hvalid s' = false /\ ed_noeol s' = ed_noeol s /\ line_is s' (text_at q) (endc (ed_noeol s) (length (text_at q))).
  Proof using HL.
    intros E p s u s' HA H q. pose proof HA as [A1 [A2 [A3 [A4 [A5 A6]]]]]. unfold move_down in H. rewrite bind_get, A2, bind_modify, bind_get in H.
    set (s1 := set_hvalid false s) in *.
    assert (Z : forall s2, at_ q s2 -> ed_hvalid s2 = false -> ed_noeol s2 = ed_noeol s -> move_cursor_to_end_of_line E s2 = ORet u s' ->
      at_ q s' /\ ed_hvalid s' = false /\ ed_noeol s' = ed_noeol s /\ line_is s' (text_at q) (endc (ed_noeol s) (length (text_at q)))).
    { intros s2 K1 K2 K3 K4. rewrite <- K3. apply (at_end E q s2 u s'); assumption. }
    assert (HA1 : at_ p s1) by exact HA.
    change (ed_loc s1) with (ed_loc s) in H. change (ed_history s1) with (ed_history s) in H. change (ed_subloc s1) with (ed_subloc s) in H.
    change (ed_subset s1) with (ed_subset s) in H. change (ed_new s1) with (ed_new s) in H.
    destruct t_dec as [Ht|Ht].
    - rewrite (num_nil s A3 Ht) in H. pose proof (all_len Ht) as HN. rewrite A5, A1 in H. rewrite bind_assoc, bind_modify in H.
      destruct p as [|p].
      + cbn [idx] in H. rewrite bind_modify in H. apply (Z _) in H; auto. apply (at_nil q s); auto; unfold q; lia.
      + rewrite idx_nil in H by exact Ht. unfold hist_len, sub_chk in H. destruct (1 <=? length (buffers h)) eqn:G; [|apply Nat.leb_gt in G; lia].
        rewrite bind_assoc, bind_liftr_val in H. destruct (length (buffers h) - S p <? length (buffers h) - 1) eqn:C.
        * apply Nat.ltb_lt in C. rewrite bind_modify in H. apply (Z _) in H; auto. apply (at_nil q s); auto; [unfold q; lia|].
          destruct p as [|p]; [lia|]. replace q with (S p) by (unfold q; lia). rewrite idx_nil by exact Ht. cbn. f_equal. lia.
        * apply Nat.ltb_ge in C. assert (Hp : p = 0) by lia. rewrite bind_modify in H. apply (Z _) in H; auto. apply (at_nil q s); auto; [unfold q; lia|].
          replace q with 0 by (unfold q; lia). reflexivity.
    - rewrite (num_cons s A3 Ht) in H. pose proof (sub_len Ht) as HN. specialize (A6 Ht). destruct p as [|p].
      + rewrite A6, bind_ret in H. apply (Z s1); auto.
      + destruct A6 as [A6 A7]. rewrite A7, A6 in H. unfold sub_chk in H. destruct (1 <=? length sub) eqn:G; [|apply Nat.leb_gt in G; lia].
        rewrite bind_assoc, bind_liftr_val in H. destruct (length L - S p <? length sub - 1) eqn:C.
        * apply Nat.ltb_lt in C. destruct p as [|p]; [lia|]. assert (Hq : q = S p) by (unfold q; lia).
          destruct (idx_text (S p) ltac:(lia)) as [l [b [El _]]]. pose proof El as El'. rewrite idx_cons in El' by exact Ht.
          assert (Hi : index sub (length L - S (S p) + 1) = Val l).
          { unfold index. replace (length L - S (S p) + 1) with (length L - S p) by lia. rewrite El'. reflexivity. }
          rewrite Hi, bind_assoc, bind_liftr_val, bind_modify in H. apply (Z _) in H; auto. rewrite Hq.
          split; [exact A1|]. split; [exact A2|]. split; [exact A3|]. split; [lia|]. split; [rewrite El; reflexivity|]. intros _.
          split; [exact A6|]. cbn. f_equal. lia.
        * apply Nat.ltb_ge in C. assert (Hp : p = 0) by lia. rewrite bind_modify in H. apply (Z _) in H; auto. replace q with 0 by (unfold q; lia).
          split; [exact A1|]. split; [exact A2|]. split; [exact A3|]. split; [lia|]. split; [reflexivity|]. intros _. reflexivity.
  Qed.
  (** Emacs *)
  Lemma at_hint : forall p s, at_ p s -> at_ p (set_hint None s).
  Proof using. intros p s H. exact H. Qed.
  Definition step (up : bool) (p : nat) : nat := if up then Nat.min (length L) (S p) else p - 1.
  Lemma move_step : forall E (up : bool) p s u s', at_ p s -> (if up then move_up E s else move_down E s) = ORet u s' ->
    at_ (step up p) s' /\ ed_hvalid s' = false /\ ed_noeol s' = ed_noeol s /\
    line_is s' (text_at (step up p)) (endc (ed_noeol s) (length (text_at (step up p)))).
  Proof using HL Hshare. intros E [|] p s u s' HA H; [apply (up_step E p s u s' HA H)|apply (down_step E p s u s' HA H)]. Qed.
  Lemma emacs_nav_core : forall E k up x z, emacs_nav (fst x) k = Some up -> emacs_core E k x = ORet tt z ->
    walks k /\ (if up then move_up E (snd x) else move_down E (snd x)) = ORet tt (snd z).
  Proof using.
    intros E k up [kk s] z N H.
    assert (A : (k = KUp \/ k = KCtrl (ch "p")) /\ up = true \/ (k = KDown \/ k = KCtrl (ch "n")) /\ up = false).
    { destruct k; cbn [emacs_nav] in N; try discriminate; try (injection N as <-; auto; fail).
      destruct (is_char c "p") eqn:C1; [apply N.eqb_eq in C1; injection N as <-; subst; auto|].
      destruct (is_char c "n") eqn:C2; [apply N.eqb_eq in C2; injection N as <-; subst; auto|discriminate]. }
    assert (W : walks k).
    { destruct A as [[[-> | ->] _]|[[-> | ->] _]]; cbn; auto. }
    split; [exact W|]. cbn [snd].
    destruct A as [[[-> | ->] ->]|[[-> | ->] ->]]; unfold emacs_core, emacs_ctrl, bind, modk, lift in H; cbn in H;
      match type of H with match ?m with _ => _ end = _ => destruct m as [[] s1| | |] eqn:Em; try discriminate; injection H as <-; exact Em end.
  Qed.
  Lemma emacs_step : forall E k up p x d y, at_ p (snd x) -> emacs_nav (fst x) k = Some up -> handle_key emacs_core E k x = ORet d y ->
    d = false /\ at_ (step up p) (snd y) /\ ed_noeol (snd y) = ed_noeol (snd x) /\
    line_is (snd y) (text_at (step up p)) (endc (ed_noeol (snd x)) (length (text_at (step up p)))).
  Proof using HL Hshare.
    intros E k up p x d y HA N H.
    assert (W : walks k).
    { destruct k; cbn [emacs_nav] in N; try discriminate; try exact I.
      destruct (is_char c "p") eqn:C1; [apply N.eqb_eq in C1; subst; cbn; auto|].
      destruct (is_char c "n") eqn:C2; [apply N.eqb_eq in C2; subst; cbn; auto|discriminate]. }
    destruct (walks_handle _ _ _ _ _ _ W H) as [-> [z [Hz ->]]]. split; [reflexivity|].
    destruct (emacs_nav_core _ _ _ _ _ N Hz) as [_ M]. destruct (move_step E up p _ _ _ HA M) as [M1 [_ [M2 M3]]]. cbn [snd].
    split; [exact M1|]. split; [exact M2|exact M3].
  Qed.
  Lemma at_loc : forall p s, at_ p s -> 0 < p -> ed_loc s <> None.
  Proof using HL.
    intros p s [_ [_ [_ [A4 [A5 _]]]]] Hp. destruct (idx_text p ltac:(lia)) as [l [b [El _]]]. congruence.
  Qed.
  Lemma emacs_walked : forall x y p q, emacs_walk (length L) x p y q -> at_ p (snd x) -> at_ q (snd y).
  Proof using HL Hshare.
    intros x y p q W. induction W as [x p|E k x p y z q W IH N H|E k x p y z q W IH N H|E k x p y z q W IH N S Q H]; intros HA; [auto|..];
      specialize (IH HA).
    - apply (emacs_step E k true q y false z IH N H).
    - apply (emacs_step E k false q y false z IH N H).
    - assert (Hp : pin (snd y) (snd z)).
      { eapply (quiet_handle pin pin_refl pin_trans); [intro; pnd|exact Q|intros ->; apply p_complete| |exact H].
        apply p_emacs_core.
        - destruct k; try discriminate; try reflexivity. cbn [shown_key]. destruct (is_char c "h"); [reflexivity|exact N].
        - destruct k; try exact I.
          + cbn [shown_key]. assert (Z : KAlt c <> KAlt (ch "<") /\ KAlt c <> KAlt (ch ">")).
            { destruct S as [S|[_ S]]; [|exact S]. unfold emacs_stays in S. cbn in S. split; intro C; rewrite C in S; repeat (destruct S as [S|S]; [discriminate|]); exact S. }
            destruct Z as [Z1 Z2]. split; apply is_char_ne; congruence.
          + cbn [shown_key]. destruct (is_char c "h"); [exact I|]. destruct Q as [Q _]. apply is_char_ne. intros ->. apply Q. cbn. auto. }
      apply (at_pin q (snd y)); [exact IH|exact Hp|]. intros ->. destruct S as [S|[S _]]; [|lia].
      assert (S' : (emacs_moves emacs_new k \/ k = KRight \/ k = KCtrl (ch "f")) /\ shown_key k = k /\ k <> KChar c_tab).
      { revert S. clear. unfold emacs_stays, emacs_moves. revert k. apply Forall_forall. cbn.
        repeat (apply Forall_cons; [split; [first [right; left; reflexivity | right; right; reflexivity | left; auto 20]|split; [reflexivity|discriminate]]|]). apply Forall_nil. }
      destruct S' as [S1 [S2 S3]].
      eapply (quiet_handle samen samen_refl samen_trans); [intro; reflexivity|exact Q|intro; contradiction| |exact H].
      rewrite S2. exact (emacs_move E k S1 y).
  Qed.
  (** Vi *)
  Lemma at_buf_mut : forall p f v s u y t' c, (forall b, data (f b) = data b) -> at_ p s -> line_is s t' c -> buf_mut f (v, s) = ORet u y ->
    exists s', y = (v, s') /\ at_ p s' /\ ed_noeol s' = ed_noeol s /\ line_is s' t' c.
  Proof using.
    intros p f v s u y t' c Hf HA [b [Hb [Hd Hc]]] H. unfold buf_mut, lift in H. rewrite (with_cur_mut_eq _ _ _ Hb) in H. cbn [pure_op] in H.
    injection H as _ <-. exists (store (f (opened s b)) s). split; [reflexivity|].
    destruct HA as [A1 [A2 [A3 [A4 [A5 A6]]]]]. split; [|split; [apply store_noeol|]].
    - split; [rewrite store_history; exact A1|]. split; [rewrite store_search; exact A2|]. unfold store, opened, cur_buf in *.
      destruct (ed_loc s) eqn:El; cbn.
      + split; [exact A3|]. split; [exact A4|]. split; [congruence|exact A6].
      + injection Hb as <-. split; [rewrite Hf; exact A3|]. split; [exact A4|]. split; [congruence|exact A6].
    - eexists. split; [apply cur_store|]. split; [rewrite Hf, data_opened; exact Hd|]. rewrite store_cursor. exact Hc.
  Qed.
  Lemma at_line : forall p s, at_ p s -> (exists b, cur_buf s = Val b) -> exists t' c, line_is s t' c.
  Proof using. intros p s _ [b Hb]. exists (data b), (ed_cursor s), b. auto. Qed.
  Lemma normal_tail : forall E p v s y n0, v_stack v = [] -> at_ p s -> line_is s (text_at p) (endc n0 (length (text_at p))) ->
    pop_mode_after_movement E Exclusive (v, s) = ORet tt y -> at_ p (snd y) /\ line_is (snd y) (text_at p) (length (text_at p) - 1).
  Proof using.
    intros E p v s y n0 Hs HA [b [Hb [Hd Hc]]] H. unfold pop_mode_after_movement, vpop in H. unfold bind at 1 in H. cbn [getk] in H. rewrite Hs in H.
    unfold vmode_of in H. rewrite Hs in H. cbn in H. unfold set_editor_mode, bind, modk, mod_ed, lift, ret in H. cbn in H.
    unfold vmode_of in H. cbn in H. rewrite Hs in H.
    pose (s1 := set_vi_mode VPNormal (set_noeol true s)).
    change (lift (display E) (vset_count 0 (vset_reset true v), s1) = ORet tt y) in H. unfold lift in H.
    assert (A1 : at_ p s1 /\ cur_buf s1 = Val b /\ ed_cursor s1 = ed_cursor s /\ ed_noeol s1 = true).
    { unfold s1, set_vi_mode. destruct (pr_vi (ed_prompt (set_noeol true s))); (split; [exact HA|split; [exact Hb|split; reflexivity]]). }
    clearbody s1. destruct A1 as [B1 [B2 [B3 B4]]].
    destruct (display E s1) as [u s2| | |] eqn:D; try discriminate. injection H as _ <-. cbn [snd].
    pose proof B1 as [_ [B5 _]]. destruct (display_plain _ _ _ _ B5 D) as [g [b' [tcl [cb [tty [_ [B6 ->]]]]]]].
    assert (b' = b) by congruence. subst b'. split; [exact B1|]. exists b. split; [exact B2|]. split; [exact Hd|].
    cbn. rewrite B3, B4, Hc. unfold num_chars. rewrite Hd. apply clamp_again.
  Qed.
  Lemma vi_core_eq : forall E k v s, vi_core E k (v, s) = vi_core_fuel (vi_fuel v) E k (v, s).
  Proof using. reflexivity. Qed.
  Definition resting (v : vi) (m : nat) : nat := match v_stack v with [] => m - 1 | _ => m end.
  Lemma vi_step : forall E k up p v s d y, at_ p s -> viI (v, s) -> WalkSpec.vi_nav v k = Some up -> handle_key vi_core E k (v, s) = ORet d y ->
    d = false /\ at_ (step up p) (snd y) /\ line_is (snd y) (text_at (step up p)) (resting v (length (text_at (step up p)))).
  Proof using HL Hshare.
    intros E k up p v s d y HA [HI1 HI2] N H. cbn [fst snd] in *.
    assert (A : (v_stack v = [] \/ v_stack v = [MInsert]) /\ (if up then k = KUp \/ k = kch "k" else k = KDown \/ k = kch "j") /\
                (v_stack v = [MInsert] -> k = if up then KUp else KDown)).
    { unfold WalkSpec.vi_nav in N. destruct (v_stack v) as [|m [|m' l]]; [| |destruct m; discriminate].
      - split; [auto|]. split; [|discriminate]. destruct k; try discriminate; try (injection N as <-; auto; fail).
        destruct (is_char c "k") eqn:C1; [apply N.eqb_eq in C1; injection N as <-; subst; auto|].
        destruct (is_char c "j") eqn:C2; [apply N.eqb_eq in C2; injection N as <-; subst; auto|discriminate].
      - destruct m; try discriminate. split; [auto|]. destruct k; try discriminate; injection N as <-; auto. }
    clear N. destruct A as [Hst [Hk Hi]].
    assert (W : walks k). { destruct up; destruct Hk as [-> | ->]; cbn; auto; split; discriminate. }
    destruct (walks_handle _ _ _ _ _ _ W H) as [-> [z [Hz ->]]]. split; [reflexivity|]. cbn [snd]. clear H.
    cut (at_ (step up p) (snd z) /\ line_is (snd z) (text_at (step up p)) (resting v (length (text_at (step up p))))); [intro C; exact C|].
    rewrite vi_core_eq in Hz. destruct (vi_fuel v) as [|f]; [discriminate|]. cbn [vi_core_fuel] in Hz. unfold bind at 1 in Hz. cbn [getk] in Hz.
    unfold vmode_of in Hz, HI2. destruct Hst as [Hst|Hst]; rewrite Hst in Hz, HI2.
    - (* normal mode *)
      assert (G : (lift (if up then move_up E else move_down E) ;;; pop_mode_after_movement E Exclusive) (v, s) = ORet tt z).
      { destruct up; destruct Hk as [-> | ->]; exact Hz. }
      clear Hz. unfold bind, lift in G. destruct ((if up then move_up E else move_down E) s) as [u s1| | |] eqn:M; try discriminate.
      assert (M' : (if up then move_up E s else move_down E s) = ORet u s1) by (destruct up; exact M).
      destruct (move_step E up p s u s1 HA M') as [M1 [_ [_ M4]]]. unfold resting. rewrite Hst.
      exact (normal_tail E (step up p) v s1 z _ Hst M1 M4 G).
    - (* insert mode *)
      assert (G : (modk (fun v => vset_reset true (vset_count 0 v)) ;;; buf_mut end_undo_group ;;;
                   lift (if up then move_up E else move_down E) ;;; buf_mut start_undo_group) (v, s) = ORet tt z).
      { specialize (Hi Hst). destruct up; subst k; exact Hz. }
      clear Hz. unfold bind at 1 in G. cbn [modk] in G. set (v1 := vset_reset true (vset_count 0 v)) in *.
      unfold bind at 1 in G. destruct (buf_mut end_undo_group (v1, s)) as [u1 y1| | |] eqn:B1; try discriminate.
      destruct HI1 as [b [Hb _]]. destruct (at_line p s HA (ex_intro _ b Hb)) as [t' [c' Hl]].
      destruct (at_buf_mut p end_undo_group v1 s u1 y1 t' c' (fun _ => eq_refl) HA Hl B1) as [s1 [-> [A1 [A2 _]]]].
      unfold bind at 1, lift at 1 in G. destruct ((if up then move_up E else move_down E) s1) as [u2 s2| | |] eqn:M; try discriminate.
      assert (M' : (if up then move_up E s1 else move_down E s1) = ORet u2 s2) by (destruct up; exact M).
      destruct (move_step E up p s1 u2 s2 A1 M') as [M1 [_ [_ M4]]].
      destruct (at_buf_mut (step up p) start_undo_group v1 s2 tt z _ _ (fun _ => eq_refl) M1 M4 G) as [s3 [-> [A3 [_ A4]]]].
      cbn [snd]. split; [exact A3|]. unfold resting. rewrite Hst. rewrite A2, HI2 in A4. exact A4.
  Qed.
  (** The first Up of a shared history. *)
  Lemma emacs_read : forall E k x d y, at_ 0 (freshen_history (snd x)) -> emacs_nav (fst x) k = Some true -> handle_key emacs_core E k x = ORet d y ->
    d = false /\ at_ (step true 0) (snd y) /\ line_is (snd y) (text_at (step true 0)) (endc (ed_noeol (snd x)) (length (text_at (step true 0)))).
  Proof using HL.
    intros E k x d y HA N H. assert (W : walks k).
    { destruct k; cbn [emacs_nav] in N; try discriminate; cbn; auto.
      destruct (is_char c "p") eqn:C1; [apply N.eqb_eq in C1; subst; auto|]. destruct (is_char c "n"); discriminate. }
    destruct (walks_handle _ _ _ _ _ _ W H) as [-> [z [Hz ->]]]. split; [reflexivity|].
    destruct (emacs_nav_core _ _ _ _ _ N Hz) as [_ M]. destruct (up_read E 0 _ _ _ HA M) as [M1 [_ [M2 M3]]]. cbn [snd].
    split; [exact M1|exact M3].
  Qed.
  Lemma vi_read : forall E k v s d y, at_ 0 (freshen_history s) -> viI (v, s) -> WalkSpec.vi_nav v k = Some true -> handle_key vi_core E k (v, s) = ORet d y ->
    d = false /\ at_ (step true 0) (snd y) /\ line_is (snd y) (text_at (step true 0)) (resting v (length (text_at (step true 0)))).
  Proof using HL.
    intros E k v s d y HA [HI1 HI2] N H. cbn [fst snd] in *.
    assert (A : (v_stack v = [] \/ v_stack v = [MInsert]) /\ (k = KUp \/ k = kch "k") /\ (v_stack v = [MInsert] -> k = KUp)).
    { unfold WalkSpec.vi_nav in N. destruct (v_stack v) as [|m [|m' l]]; [| |destruct m; discriminate].
      - split; [auto|]. split; [|discriminate]. destruct k; try discriminate; auto.
        destruct (is_char c "k") eqn:C1; [apply N.eqb_eq in C1; subst; auto|]. destruct (is_char c "j"); discriminate.
      - destruct m; try discriminate. split; [auto|]. destruct k; try discriminate; auto. }
    clear N. destruct A as [Hst [Hk Hi]].
    assert (W : walks k). { destruct Hk as [-> | ->]; cbn; auto; split; discriminate. }
    destruct (walks_handle _ _ _ _ _ _ W H) as [-> [z [Hz ->]]]. split; [reflexivity|]. cbn [snd]. clear H.
    cut (at_ (step true 0) (snd z) /\ line_is (snd z) (text_at (step true 0)) (resting v (length (text_at (step true 0))))); [intro C; exact C|].
    rewrite vi_core_eq in Hz. destruct (vi_fuel v) as [|f]; [discriminate|]. cbn [vi_core_fuel] in Hz. unfold bind at 1 in Hz. cbn [getk] in Hz.
    unfold vmode_of in Hz, HI2. destruct Hst as [Hst|Hst]; rewrite Hst in Hz, HI2.
    - assert (G : (lift (move_up E) ;;; pop_mode_after_movement E Exclusive) (v, s) = ORet tt z).
      { destruct Hk as [-> | ->]; exact Hz. }
      clear Hz. unfold bind, lift in G. destruct (move_up E s) as [u s1| | |] eqn:M; try discriminate.
      destruct (up_read E 0 s u s1 HA M) as [M1 [_ [_ M4]]]. unfold resting. rewrite Hst.
      exact (normal_tail E (step true 0) v s1 z _ Hst M1 M4 G).
    - assert (G : (modk (fun v => vset_reset true (vset_count 0 v)) ;;; buf_mut end_undo_group ;;;
                   lift (move_up E) ;;; buf_mut start_undo_group) (v, s) = ORet tt z).
      { specialize (Hi Hst). subst k. exact Hz. }
      clear Hz. unfold bind at 1 in G. cbn [modk] in G. set (v1 := vset_reset true (vset_count 0 v)) in *.
      assert (El : ed_loc s = None).
      { pose proof (proj1 (proj2 (proj2 (proj2 (proj2 HA))))) as El. cbn [idx] in El. rewrite <- El. unfold freshen_history. destruct (_ && _); reflexivity. }
      assert (B0 : cur_buf s = Val (ed_new s)) by (unfold cur_buf; rewrite El; reflexivity).
      unfold bind at 1, buf_mut at 1, lift at 1 in G. rewrite (with_cur_mut_eq _ _ _ B0) in G. cbn [pure_op] in G.
      set (s1 := store (end_undo_group (opened s (ed_new s))) s) in *.
      assert (A1 : at_ 0 (freshen_history s1)).
      { revert HA. unfold s1, store, opened, freshen_history. rewrite El. cbn [set_new set_changed ed_history ed_fresh ed_fs]. destruct (_ && _); intro HA; exact HA. }
      assert (A2 : ed_noeol s1 = ed_noeol s) by (unfold s1; apply store_noeol). clearbody s1.
      unfold bind at 1, lift at 1 in G. destruct (move_up E s1) as [u2 s2| | |] eqn:M; try discriminate.
      destruct (up_read E 0 s1 u2 s2 A1 M) as [M1 [_ [_ M4]]].
      destruct (at_buf_mut (step true 0) start_undo_group v1 s2 tt z _ _ (fun _ => eq_refl) M1 M4 G) as [s3 [-> [A3 [_ A4]]]].
      cbn [snd]. split; [exact A3|]. unfold resting. rewrite Hst. rewrite A2, HI2 in A4. exact A4.
  Qed.
  Lemma vi_pin : forall E k n v s, J n v -> WalkSpec.vi_nav v k = None -> k <> kch "." -> (forall c, k = KCtrl c -> is_char c "l" = false) ->
    after pinK (vi_core E k) (v, s).
  Proof using.
    intros E k n v s HJ N Hd Hl. unfold after. rewrite vi_core_eq. destruct (vi_fuel v) as [|f]; [exact I|]. cbn [vi_core_fuel]. unfold bind at 1. cbn [getk].
    pose proof (j_shape _ _ HJ) as Sh. unfold WalkSpec.vi_nav in N. destruct (vmode_of v) eqn:M.
    - assert (Hs : v_stack v = [MInsert]) by (unfold vmode_of in M; destruct Sh; try discriminate; reflexivity). rewrite Hs in N.
      destruct k; try discriminate; try (apply p_insert_mode; exact I).
      + destruct (is_char c "[") eqn:B.
        * pose proof (esc_pin f E v s M (j_last _ _ HJ)) as H. unfold vi_insert in *. rewrite B. exact H.
        * apply p_insert_mode. split; [exact B|apply Hl; reflexivity].
      + apply esc_pin; [exact M|exact (j_last _ _ HJ)].
    - rewrite (J_normal _ _ HJ M) in N. apply p_normal; [|exact Hd]. destruct k; try discriminate; try reflexivity.
      + cbn [p_nav]. destruct (is_char c "k"); [discriminate|]. destruct (is_char c "j"); [discriminate|reflexivity].
      + cbn [p_nav]. apply Hl. reflexivity.
    - apply p_replace.
    - apply p_delete.
    - apply p_to_char.
    - apply p_g.
    - exact I.
  Qed.
  Lemma vi_walked : forall x y p q, vi_walk (length L) x p y q -> at_ p (snd x) -> (exists n, J n (fst x)) -> viI x ->
    at_ q (snd y) /\ (exists n, J n (fst y)) /\ viI y.
  Proof using HL Hshare.
    intros x y p q W HA HJ HI.
    assert (KI : forall E k, kpres (handle_key vi_core E k) viI).
    { intros E k. apply kpres_handle_key; [exact viI_local|]. intro. apply kp_vi_core. }
    assert (KJ : forall E k v s d z, (exists n, J n v) -> handle_key vi_core E k (v, s) = ORet d z -> exists n, J n (fst z)).
    { intros E k v s d z [n Hn] H.
      pose proof (vk_handle_key E k v (fun v' => exists n', J n' v') (ex_intro _ n Hn) (vk_vi_core E _ n v Hn) s) as V.
      rewrite H in V. destruct z. exact V. }
    induction W as [x p|E k x p y z q W IH N H|E k x p y z q W IH N H|E k x p y z q W IH N S Q H]; [auto|..];
      destruct (IH HA HJ HI) as [I1 [I2 I3]]; destruct y as [v s]; cbn [fst snd] in *;
      (split; [|split; [exact (KJ _ _ _ _ _ _ I2 H)|exact (wp_ret_of _ _ _ _ _ _ _ (KI E k (v, s) I3) H)]]).
    - apply (vi_step E k true q v s false z I1 I3 N H).
    - apply (vi_step E k false q v s false z I1 I3 N H).
    - destruct I2 as [n Hn].
      assert (ND : k <> kch ".").
      { destruct S as [S|[_ S]]; [|exact S]. intros ->. destruct S as [[_ S]|[_ S]]; cbn in S; repeat (destruct S as [S|S]; [discriminate|]); exact S. }
      assert (Hp : pin s (snd z)).
      { change (pin (snd (v, s)) (snd z)). eapply (quiet_handle pin pin_refl pin_trans); [intro; pnd|exact Q|intros ->; apply p_complete| |exact H].
        apply (vi_pin E _ n); [exact Hn| | |].
        - destruct k; try exact N. cbn [shown_key]. destruct (is_char c "h"); [|exact N]. unfold WalkSpec.vi_nav. destruct (v_stack v) as [|[] []]; reflexivity.
        - destruct k; try exact ND. cbn [shown_key]. destruct (is_char c "h"); discriminate.
        - intros c Hc. destruct k; try discriminate. cbn [shown_key] in Hc. destruct (is_char c0 "h"); [discriminate|]. injection Hc as ->.
          destruct Q as [Q _]. apply is_char_ne. intros ->. apply Q. cbn. auto. }
      apply (at_pin q s); [exact I1|exact Hp|]. intros ->. destruct S as [S|[S _]]; [|lia].
      assert (S' : (vi_moves v k \/ (k = KRight /\ vi_moves v KLeft)) /\ shown_key k = k /\ k <> KChar c_tab).
      { assert (Hin : In k ([KLeft; KRight; KHome; KEnd] ++ map KChar (str "hlwWeEbB0123456789^$ "))).
        { apply in_or_app. destruct S as [[_ S]|[_ S]]; auto. }
        split.
        - unfold vi_moves. destruct S as [[S1 S2]|[S1 S2]].
          + cbn in S2. destruct S2 as [<-|[<-|[<-|[<-|[]]]]]; [left; left|right; split; [reflexivity|left]|left; left|left; left]; (split; [exact S1|cbn; auto 10]).
          + left. right. split; [exact S1|]. clear - S2. revert k S2. apply Forall_forall. cbn.
            repeat (apply Forall_cons; [auto 30|]). apply Forall_nil.
        - clear - Hin. revert k Hin. apply Forall_forall. cbn. repeat (apply Forall_cons; [split; [reflexivity|discriminate]|]). apply Forall_nil. }
      destruct S' as [S1 [S2 S3]].
      change (samen (snd (v, s)) (snd z)). eapply (quiet_handle samen samen_refl samen_trans); [intro; reflexivity|exact Q|intro; contradiction| |exact H].
      rewrite S2. exact (vi_move E k v s S1).
  Qed.
End Walk.

Lemma walk_kpres : forall {K} nav stays edits (core : env -> key -> MK K unit) n (I : K * ed -> Prop) x p y q,
  (forall E k, kpres (handle_key core E k) I) -> walk nav stays edits core n x p y q -> I x -> I y.
Proof.
  intros K nav stays edits core n I0 x p y q HI W. induction W as [x p|E k x p y z q W IH N H|E k x p y z q W IH N H|E k x p y z q W IH N S Q H]; intro HX; auto;
    pose proof (HI E k y (IH HX)) as Z; exact (wp_ret_of _ _ _ _ _ _ _ Z H).
Qed.

(** * Whole sessions *)
Lemma inv_new : forall E p f ib h w cb ttys s, editor_new E p f ib h w cb ttys = ORet tt s -> inv h s.
Proof.
  intros E p f ib h w cb ttys s H. unfold editor_new in H. destruct (negb (e_wok E)); [discriminate|].
  match type of H with ?m ?s0 = _ => assert (K : keeps (invr h) m) end.
  { apply (keeps_bind _ (invr_trans h)); [intro; destruct (sub_chk _ _); [apply invr_refl|exact I]|intro].
    apply (keeps_bind _ (invr_trans h)); [intro s1; pose proof (pin_tty_write E (init_toks a (pr_prompt p)) s1) as P; destruct (tty_write _ _ s1); auto; apply invr_pin; exact P|intros _].
    apply (keeps_bind _ (invr_trans h)).
    - apply (keeps_when _ (invr_refl h)). intro s1. pose proof (p_move_end E s1) as P. destruct (move_cursor_to_end_of_line E s1); auto; apply invr_pin; exact P.
    - intros _ s1. pose proof (pin_display E s1) as P. destruct (display E s1); auto; apply invr_pin; exact P. }
  match type of H with _ ?s0 = _ => specialize (K s0) end. rewrite H in K. apply K. split; [reflexivity|]. intros _ _. reflexivity.
Qed.
Lemma inv_at : forall h s L, inv h s -> is_search s = false -> ed_loc s = None -> at_ h (data (ed_new s)) L 0 s.
Proof.
  intros h s L [H1 H2] Hs Hl. split; [exact H1|]. split; [exact Hs|]. split; [reflexivity|]. split; [lia|]. split; [exact Hl|].
  intros _. apply H2; auto.
Qed.

Lemma emacs_walk_shows : forall E0 pr f ib h w cb ttys s0 l d k s L k' s' p E k1 up d1 k2 s2,
  h_share h = false -> editor_new E0 pr f ib h w cb ttys = ORet tt s0 ->
  ~ In (KAlt (ch ">")) (map snd l) -> run_keys emacs_core l (emacs_new, s0) = ORet d (k, s) ->
  is_search s = false -> ed_loc s = None -> offered (texts h) (data (ed_new s)) L ->
  emacs_walk (length L) (k, s) 0 (k', s') p -> emacs_nav k' k1 = Some up ->
  handle_key emacs_core E k1 (k', s') = ORet d1 (k2, s2) ->
  let p' := if up : bool then Nat.min (length L) (S p) else p - 1 in
  let t' := nth p' (data (ed_new s) :: L) [] in
  d1 = false /\ line_is s2 t' (length t') /\ (p' = 0 -> ed_loc s2 = None).
Proof.
  intros E0 pr f ib h w cb ttys s0 l d k s L k' s' p E k1 up d1 k2 s2 Hsh Hn Hl Hr Hs Hlc HL W N H p' t'.
  assert (HI : inv h s).
  { pose proof (i_run h Hsh emacs_core (fun k => k <> KAlt (ch ">")) l) as R.
    assert (R' : keeps (on_ed (invr h)) (run_keys emacs_core l)).
    { apply R.
      - intros E1 k0 Hk. apply (i_handle h Hsh). intros k'' [-> | ->]; apply (i_emacs_core h Hsh); [exact Hk|discriminate].
      - apply Forall_forall. intros [E1 k0] Hin C. apply Hl. apply in_map_iff. exists (E1, k0). auto. }
    specialize (R' (emacs_new, s0)). rewrite Hr in R'. apply R'. eapply inv_new. exact Hn. }
  pose proof (inv_at h s L HI Hs Hlc) as HA.
  pose proof (emacs_walked h (data (ed_new s)) L Hsh HL _ _ _ _ W HA) as HA'. cbn [snd] in HA'.
  assert (HE : eolI (k', s')).
  { eapply (walk_kpres _ _ _ emacs_core _ eolI); [|exact W|].
    - intros E1 k0. apply kpres_handle_key; [exact eolI_local|]. intro. apply kpres_emacs_core.
    - pose proof (editor_new_curok _ _ _ _ _ _ _ _ _ Hn) as C.
      pose proof (kpres_run_keys emacs_core eolI l eolI_local kpres_emacs_core (emacs_new, s0)) as R.
      assert (C' : eolI (emacs_new, s0)) by (destruct C; split; assumption).
      exact (wp_ret_of _ _ _ _ _ _ _ (R C') Hr). }
  destruct HE as [_ HE]. cbn [snd] in HE.
  destruct (emacs_step h (data (ed_new s)) L Hsh HL E k1 up p (k', s') d1 (k2, s2) HA' N H) as [Z1 [Z2 [_ Z4]]]. cbn [snd] in *.
  rewrite HE in Z4. split; [exact Z1|]. split; [exact Z4|]. intro Hp. destruct Z2 as [_ [_ [_ [_ [Z5 _]]]]].
  change (step L up p) with p' in Z5. rewrite Hp in Z5. exact Z5.
Qed.

Lemma vi_walk_shows : forall E0 pr f ib h w cb ttys s0 E1 l d v s L v' s' p E k1 up d1 v2 s2,
  h_share h = false -> editor_new E0 pr f ib h w cb ttys = ORet tt s0 ->
  (vi_init E1 ;;; run_keys vi_core l) (vi_new, s0) = ORet d (v, s) ->
  is_search s = false -> ed_loc s = None -> offered (texts h) (data (ed_new s)) L ->
  vi_walk (length L) (v, s) 0 (v', s') p -> WalkSpec.vi_nav v' k1 = Some up ->
  handle_key vi_core E k1 (v', s') = ORet d1 (v2, s2) ->
  let p' := if up : bool then Nat.min (length L) (S p) else p - 1 in
  let t' := nth p' (data (ed_new s) :: L) [] in
  d1 = false /\ line_is s2 t' (if is_normal (vmode_of v') then length t' - 1 else length t') /\ (p' = 0 -> ed_loc s2 = None).
Proof.
  intros E0 pr f ib h w cb ttys s0 E1 l d v s L v' s' p E k1 up d1 v2 s2 Hsh Hn Hr Hs Hlc HL W N H p' t'.
  assert (HI : inv h s).
  { assert (R' : keeps (on_ed (invr h)) (vi_init E1 ;;; run_keys vi_core l)).
    { apply (keeps_bind _ (on_ed_trans _ (invr_trans h))).
      - apply keeps_invK. unfold vi_init. kkp.
      - intros _. apply (i_run h Hsh vi_core (fun _ => True) l); [|apply Forall_forall; auto].
        intros E2 k0 _. apply (i_handle h Hsh). intros; apply (i_vi_core h Hsh). }
    specialize (R' (vi_new, s0)). rewrite Hr in R'. apply R'. eapply inv_new. exact Hn. }
  pose proof (inv_at h s L HI Hs Hlc) as HA.
  assert (HJ : exists n, J n v). { pose proof (vk_session E1 l s0) as V. rewrite Hr in V. exact V. }
  assert (HV : viI (v, s)).
  { pose proof (editor_new_curok _ _ _ _ _ _ _ _ _ Hn) as C.
    assert (R : kpres (vi_init E1 ;;; run_keys vi_core l) viI).
    { apply kpres_bind; [apply kp_vi_init|]. intro. apply kpres_run_keys; [exact viI_local|exact kp_vi_core]. }
    assert (C' : viI (vi_new, s0)) by (destruct C; split; assumption).
    exact (wp_ret_of _ _ _ _ _ _ _ (R _ C') Hr). }
  destruct (vi_walked h (data (ed_new s)) L Hsh HL _ _ _ _ W HA HJ HV) as [HA' [_ HV']]. cbn [fst snd] in *.
  destruct (vi_step h (data (ed_new s)) L Hsh HL E k1 up p v' s' d1 (v2, s2) HA' HV' N H) as [Z1 [Z2 Z3]]. cbn [snd] in *.
  split; [exact Z1|]. split.
  - assert (R : resting v' (length t') = if is_normal (vmode_of v') then length t' - 1 else length t').
    { unfold resting, vmode_of. unfold WalkSpec.vi_nav in N. destruct (v_stack v') as [|m [|]]; [reflexivity| |destruct m; discriminate].
      destruct m; try discriminate. reflexivity. }
    rewrite <- R. exact Z3.
  - intro Hp. destruct Z2 as [_ [_ [_ [_ [Z5 _]]]]]. change (step L up p) with p' in Z5. rewrite Hp in Z5. exact Z5.
Qed.

(** * Checking that a concrete run walks *)
Fixpoint walk_run {K} (nav : K -> key -> option bool) (okb : nat -> K * ed -> key -> bool)
  (core : env -> key -> MK K unit) (E : env) (n : nat) (l : list key) (x : K * ed) (p : nat) : option ((K * ed) * nat) :=
  match l with
  | [] => Some (x, p)
  | k :: l' =>
    match handle_key core E k x with
    | ORet false y =>
      match nav (fst x) k with
      | Some up => walk_run nav okb core E n l' y (if up then Nat.min n (S p) else p - 1)
      | None => if okb p x k then walk_run nav okb core E n l' y p else None
      end
    | _ => None
    end
  end.
Lemma walk_run_ok : forall {K} nav stays edits okb (core : env -> key -> MK K unit) E n x0 p0,
  (forall p x k, okb p x k = true -> (stays (fst x) k \/ 0 < p /\ edits (fst x) k) /\ quiet k (snd x)) ->
  forall l x p y q, walk nav stays edits core n x0 p0 x p -> walk_run nav okb core E n l x p = Some (y, q) ->
  walk nav stays edits core n x0 p0 y q.
Proof.
  intros K nav stays edits okb core E n x0 p0 Hok. induction l as [|k l IH]; intros x p y q W R; cbn [walk_run] in R.
  - injection R as <- <-. exact W.
  - destruct (handle_key core E k x) as [[|] y1| | |] eqn:H; try discriminate. destruct (nav (fst x) k) as [[|]|] eqn:N.
    + eapply IH; [|exact R]. eapply walk_up; eassumption.
    + eapply IH; [|exact R]. eapply walk_down; eassumption.
    + destruct (okb p x k) eqn:O; [|discriminate]. destruct (Hok _ _ _ O) as [O1 O2]. eapply IH; [|exact R]. eapply walk_key; eassumption.
Qed.
Definition okb {K} (p : nat) (_ : K * ed) (k : key) : bool :=
  (0 <? p) && match k with KChar c => negb (c =? c_nl)%N && negb (c =? ch ".")%N | KBackspace | KEsc | KLeft => true | _ => false end.
Lemma okb_facts : forall {K} p (x : K * ed) k, okb p x k = true -> 0 < p /\ quiet k (snd x) /\ k <> kch "." /\ k <> KAlt (ch "<") /\ k <> KAlt (ch ">").
Proof.
  intros K p x k H. unfold okb in H. apply andb_prop in H as [H1 H2]. apply Nat.ltb_lt in H1. split; [exact H1|].
  destruct k; try discriminate; cbn [quiet]; [|repeat split; discriminate..].
  apply andb_prop in H2 as [H2 H3]. rewrite negb_true_iff, N.eqb_neq in H2, H3. repeat split; try discriminate; auto.
  intro C. injection C as ->. apply H3. reflexivity.
Qed.
Lemma emacs_walk_run : forall E n l x y q, walk_run emacs_nav okb emacs_core E n l x 0 = Some (y, q) -> emacs_walk n x 0 y q.
Proof.
  intros E n l x y q H. apply (walk_run_ok emacs_nav emacs_stays emacs_edits okb emacs_core E n x 0) with (l := l) (x := x) (p := 0); [|apply walk_nil|exact H].
  intros p x1 k O. destruct (okb_facts _ _ _ O) as [O1 [O2 [O3 [O4 O5]]]]. split; [right; split; [exact O1|split; assumption]|exact O2].
Qed.
Lemma vi_walk_run : forall E n l x y q, walk_run WalkSpec.vi_nav okb vi_core E n l x 0 = Some (y, q) -> vi_walk n x 0 y q.
Proof.
  intros E n l x y q H. apply (walk_run_ok WalkSpec.vi_nav vi_stays vi_edits okb vi_core E n x 0) with (l := l) (x := x) (p := 0); [|apply walk_nil|exact H].
  intros p x1 k O. destruct (okb_facts _ _ _ O) as [O1 [O2 [O3 _]]]. split; [right; split; [exact O1|exact O3]|exact O2].
Qed.
