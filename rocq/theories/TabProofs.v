(** Completion. *)
From Verif Require Import Base Utf8 Utf8Proofs BufferModel UtilModel HistoryModel EditorState EditorModel
  KeymapModel MonadLemmas EditorLemmas CursorProofs Lemmas BufferSpec BufferProofs UtilSpec UtilProofs
  EditorSpec EditorProofs EditorOps EmacsProofs TabSpec.
From Coq Require Import Sorting.Sorted.
Local Open Scope monad_scope.

(** * Sorting *)

Lemma text_lt_irrefl : forall a, ~ text_lt a a.
Proof. induction a as [|x a IH]; intro H; inversion H; subst; [lia|auto]. Qed.
Lemma text_lt_trans : forall a b c, text_lt a b -> text_lt b c -> text_lt a c.
Proof.
  intros a b c H. revert c. induction H; intros c H'; inversion H'; subst.
  all: try (apply tlt_nil). all: try (apply tlt_lt; lia). apply tlt_eq. auto.
Qed.
Lemma text_leb_spec : forall a b, if text_leb a b then a = b \/ text_lt a b else text_lt b a.
Proof.
  induction a as [|x a IH]; intros [|y b]; cbn [text_leb]; auto.
  - right. constructor.
  - constructor.
  - destruct (x <? y)%N eqn:E1; [apply N.ltb_lt in E1; right; constructor; exact E1|].
    destruct (y <? x)%N eqn:E2; [apply N.ltb_lt in E2; constructor; exact E2|].
    apply N.ltb_ge in E1, E2. assert (x = y) by lia. subst y. specialize (IH b).
    destruct (text_leb a b); [destruct IH as [->|IH]; [auto|right; constructor; exact IH]|constructor; exact IH].
Qed.

Definition text_le (a b : text) : Prop := a = b \/ text_lt a b.
Lemma insert_sorted_in : forall t l x, In x (insert_sorted t l) <-> x = t \/ In x l.
Proof.
  intros t l x. induction l as [|y l IH]; cbn [insert_sorted]; [cbn; firstorder|].
  destruct (text_leb t y); cbn [In]; [firstorder|]. rewrite IH. firstorder.
Qed.
Lemma insert_sorted_ok : forall t l, StronglySorted text_le l -> StronglySorted text_le (insert_sorted t l).
Proof.
  intros t l H. induction H as [|y l H IH Hy]; cbn [insert_sorted]; [repeat constructor|].
  pose proof (text_leb_spec t y) as L. destruct (text_leb t y).
  - constructor; [constructor; assumption|]. constructor; [exact L|].
    eapply Forall_impl; [|exact Hy]. intros z [<-|Hz]; [exact L|]. destruct L as [->|L]; [right; exact Hz|].
    right. eapply text_lt_trans; eassumption.
  - constructor; [exact IH|]. apply Forall_forall. intros z Hz. apply insert_sorted_in in Hz.
    destruct Hz as [->|Hz]; [right; exact L|]. rewrite Forall_forall in Hy. auto.
Qed.
Lemma sort_ok : forall l, StronglySorted text_le (sort_texts l) /\ forall x, In x (sort_texts l) <-> In x l.
Proof.
  induction l as [|t l [IH1 IH2]]; cbn [sort_texts]; [split; [constructor|tauto]|].
  split; [apply insert_sorted_ok; exact IH1|]. intro x. rewrite insert_sorted_in, IH2. cbn. firstorder.
Qed.
Lemma dedup_ok : forall l, StronglySorted text_le l ->
  StronglySorted text_lt (dedup_adj l) /\ (forall x, In x (dedup_adj l) <-> In x l) /\
  (match dedup_adj l with y :: _ => exists l', l = y :: l' | [] => l = [] end).
Proof.
  intros l H. induction H as [|x l H IH Hx]; cbn [dedup_adj]; [split; [constructor|]; split; [tauto|reflexivity]|].
  destruct IH as [I1 [I2 I3]]. destruct (dedup_adj l) as [|y r] eqn:Ed.
  - subst l. split; [repeat constructor|]. split; [tauto|]. eauto.
  - destruct I3 as [l' ->]. destruct (text_eqb x y) eqn:Ex.
    + apply text_eqb_eq in Ex. subst y. split; [exact I1|]. split; [|eauto].
      intro z. rewrite I2. cbn. firstorder.
    + assert (Hne : x <> y) by (intro; subst; rewrite (proj2 (text_eqb_eq y y) eq_refl) in Ex; discriminate).
      assert (Hlt : text_lt x y).
      { inversion Hx; subst. destruct H2; [congruence|assumption]. }
      split; [|split; [|eauto]].
      * constructor; [exact I1|]. constructor; [exact Hlt|]. inversion I1; subst.
        eapply Forall_impl; [|exact H3]. intros z Hz. eapply text_lt_trans; eassumption.
      * intro z. specialize (I2 z). cbn [In] in *. firstorder.
Qed.
Lemma choices_ok : forall l, choices l (dedup_adj (sort_texts l)).
Proof.
  intro l. destruct (sort_ok l) as [H1 H2]. destruct (dedup_ok _ H1) as [H3 [H4 _]].
  split; [exact H3|]. intro x. rewrite H4. apply H2.
Qed.
Lemma choices_unique : forall l l1 l2, choices l l1 -> choices l l2 -> l1 = l2.
Proof.
  intros l l1 l2 [S1 I1] [S2 I2]. assert (I : forall x, In x l1 <-> In x l2) by (intro; rewrite I1, I2; tauto).
  clear I1 I2. revert l2 S2 I. induction S1 as [|x l1 S1 IH Hx]; intros l2 S2 I.
  - destruct l2 as [|y l2]; [reflexivity|]. destruct (proj2 (I y)); left; reflexivity.
  - destruct l2 as [|y l2]; [destruct (proj1 (I x)); left; reflexivity|].
    inversion S2 as [|? ? S3 Hy]; subst. rewrite Forall_forall in Hx, Hy.
    assert (x = y).
    { destruct (proj1 (I x) (or_introl eq_refl)) as [E|E]; [auto|].
      destruct (proj2 (I y) (or_introl eq_refl)) as [E'|E']; [auto|].
      exfalso. apply (text_lt_irrefl x). eapply text_lt_trans; eauto. }
    subst y. f_equal. apply IH; [exact S3|]. intro z. split; intro Hz.
    + destruct (proj1 (I z) (or_intror Hz)) as [<-|E]; [|exact E]. exfalso. apply (text_lt_irrefl x). auto.
    + destruct (proj2 (I z) (or_intror Hz)) as [<-|E]; [|exact E]. exfalso. apply (text_lt_irrefl x). auto.
Qed.
Lemma choices_exist : forall l, exists l', choices l l' /\ forall l'', choices l l'' -> l'' = l'.
Proof.
  intro l. exists (dedup_adj (sort_texts l)). split; [apply choices_ok|].
  intros l'' H. exact (choices_unique l _ _ H (choices_ok l)).
Qed.

(** * The word before the cursor *)

Lemma word_before_plain : forall E s b ws c o, cur_buf s = Val b -> ed_cursor s = c -> e_words E (data b) = ws ->
  increasing ws -> get_word_before_cursor E false s = Val o ->
  match o with
  | Some (st, en) => In (st, en) ws /\ st < c <= en
  | None => forall st en, In (st, en) ws -> ~ (st < c <= en)
  end.
Proof.
  intros E s b ws c o Hb Hc Hw HI H. unfold get_word_before_cursor, get_words_and_cursor_position in H.
  rewrite Hb in H. cbn [rbind] in H. rewrite Hw, Hc in H.
  destruct (cpos_get c ws) as [p|] eqn:Ep; [|discriminate]. cbn [rbind] in H.
  apply cpos_get_iff in Ep; [|exact HI].
  assert (Hnone : (forall i, ~ at_end ws c i /\ ~ inside ws c i) -> forall st en, In (st, en) ws -> ~ (st < c <= en)).
  { intros K st en Hin [K1 K2]. apply In_nth_error in Hin as [i Hi]. destruct (K i) as [K3 K4].
    destruct (Nat.eq_dec c en) as [->|Hne]; [apply K3; exists st; exact Hi|].
    apply K4. exists st, en. split; [exact Hi|lia]. }
  destruct p as [i|i|i|l r]; cbn [class_is class_of] in Ep.
  - destruct Ep as [st [en [E1 E2]]]. rewrite E1 in H. injection H as <-. split; [eapply nth_error_In; eassumption|lia].
  - cbn [andb] in H. injection H as <-. destruct Ep as [[en E1] E2]. apply Hnone. intro j. split; [apply E2|].
    intros [st' [en' [K1 K2]]]. pose proof (inc_pos ws HI _ _ _ E1). pose proof (inc_pos ws HI _ _ _ K1).
    destruct (lt_eq_lt_dec i j) as [[Hj| ->]|Hj].
    + pose proof (inc_lt ws HI i j _ _ _ _ Hj E1 K1). lia.
    + rewrite E1 in K1. injection K1 as <- <-. lia.
    + pose proof (inc_lt ws HI j i _ _ _ _ Hj K1 E1). lia.
  - destruct Ep as [st E1]. rewrite E1 in H. injection H as <-. pose proof (inc_pos ws HI _ _ _ E1).
    split; [eapply nth_error_In; eassumption|lia].
  - destruct Ep as [_ [_ E2]]. assert (o = None) by (destruct l; injection H as <-; reflexivity). subst o.
    apply Hnone. intro j. destruct (E2 j) as [_ [K1 K2]]. auto.
Qed.
Lemma word_unique : forall ws c s e s' e', increasing ws -> In (s, e) ws -> In (s', e') ws ->
  s < c <= e -> s' < c <= e' -> s = s' /\ e = e'.
Proof.
  intros ws c s e s' e' HI H1 H2 H3 H4. apply In_nth_error in H1 as [i Hi]. apply In_nth_error in H2 as [j Hj].
  destruct (lt_eq_lt_dec i j) as [[Hl| ->]|Hl].
  - pose proof (inc_lt ws HI i j _ _ _ _ Hl Hi Hj). lia.
  - rewrite Hi in Hj. injection Hj as <- <-. auto.
  - pose proof (inc_lt ws HI j i _ _ _ _ Hl Hj Hi). lia.
Qed.
(** What the model finds. *)
Lemma word_found : forall E s b ws c a part w r o, cur_buf s = Val b -> ed_cursor s = c ->
  e_words E (data b) = ws -> increasing ws -> at_word ws (data b) c a part w r ->
  get_word_before_cursor E false s = Val o ->
  (o = Some (length a, length (a ++ w)) /\ part <> [] /\ is_prefix (a ++ w) (data b)) \/
  (o = None /\ part = [] /\ w = []).
Proof.
  intros E s b ws c a part w r o Hb Hc Hw HI [H1 [H2 H3]] H.
  pose proof (word_before_plain E s b ws c o Hb Hc Hw HI H) as K.
  destruct H3 as [[x [G1 [G2 [G3 [y G4]]]]]|[G1 [G2 G3]]].
  - left. rewrite app_length in H2.
    assert (Hin : length a < c <= length (a ++ w)).
    { rewrite G3, !app_length. destruct part; [congruence|cbn [length] in *; lia]. }
    assert (Ho : o = Some (length a, length (a ++ w))).
    { destruct o as [[st en]|]; [|exfalso; exact (K _ _ G1 Hin)]. destruct K as [K1 K2].
      destruct (word_unique ws c st en _ _ HI K1 G1 K2 Hin) as [-> ->]. reflexivity. }
    split; [exact Ho|]. split; [exact G2|]. exists y. rewrite H1, G3, G4, !app_assoc. reflexivity.
  - right. destruct o as [[st en]|]; [|auto]. destruct K as [K1 K2]. exfalso. exact (G1 _ _ K1 K2).
Qed.

(** * Methods *)

Definition tab_at (h : option (list text * option nat)) (a r : text) (s : ed) : Prop :=
  (exists b, view s b (length a) false /\ data b = a ++ r) /\ ed_hint s = h.

Lemma tab_lands : forall h a r s b a' r' s', tab_at h a r s -> lands s b (length a') false s' -> data b = a' ++ r' ->
  tab_at h a' r' s'.
Proof.
  intros h a r s b a' r' s' [_ H1] [V [S _]] Hd. split; [exists b; auto|].
  destruct S as [_ [_ [_ [S1 _]]]]. congruence.
Qed.
Lemma tab_hint : forall h h' a r s, tab_at h a r s -> tab_at h' a r (set_hint h' s).
Proof.
  intros h h' a r s [[b [V Hb]] _]. split; [|reflexivity]. exists b. split; [|exact Hb]. exact (view_hint h' _ _ _ _ V).
Qed.
Lemma tab_insert : forall E h a r t s, tab_at h a r s ->
  ok (insert_chars_after_cursor E t) s (fun _ s' => tab_at h (a ++ t) r s').
Proof.
  intros E h a r t s A. pose proof A as [[b [V Hb]] _].
  eapply ok_mono; [apply (ok_insert E t s b _ _ a r V Hb eq_refl)|]. cbv beta. intros _ s' L.
  rewrite clamp_le in L by (rewrite !app_length; lia).
  eapply tab_lands; [exact A|exact L|]. unfold put. cbn [data]. rewrite <- app_assoc. reflexivity.
Qed.
Lemma tab_display : forall E h a r s, tab_at h a r s -> ok (display E) s (fun _ s' => tab_at h a r s').
Proof.
  intros E h a r s A. pose proof A as [[b [V Hb]] _].
  eapply ok_mono; [apply (ok_display E _ _ _ _ V)|]. cbv beta. intros _ s' L.
  rewrite clamp_le in L by (rewrite Hb, app_length; lia). eapply tab_lands; [exact A|exact L|exact Hb].
Qed.
Lemma tab_delete_word : forall E h s ws a part w r, tab_at h (a ++ part) r s ->
  e_words E (a ++ part ++ r) = ws -> increasing ws ->
  at_word ws (a ++ part ++ r) (length (a ++ part)) a part w r ->
  ok (delete_word_before_cursor E false) s (fun _ s' => tab_at h a r s').
Proof.
  intros E h s ws a part w r A Hw HI Hat. pose proof A as [[b [V Hb]] Hh]. rewrite <- app_assoc in Hb.
  destruct (view_line _ _ _ _ V) as [b0 [B1 B2]]. pose proof V as [_ [_ [Vc _]]].
  unfold delete_word_before_cursor. apply ok_bind, ok_get, ok_bind, ok_liftr. intros o Ho.
  assert (Hd0 : data b0 = a ++ part ++ r) by congruence.
  pose proof (word_found E s b0 ws _ a part w r o B1 Vc ltac:(rewrite Hd0; exact Hw) HI ltac:(rewrite Hd0; exact Hat) Ho)
    as [[-> [Hp _]]|[-> [-> _]]].
  - rewrite Vc. apply ok_bind, ok_bind. eapply ok_mono; [apply (ok_mut _ _ _ _ _ V)|].
    cbv beta. intros n s1 [b' [Hf [V1 S1]]]. apply ok_bind, ok_liftr. intros c1 Hc1. apply ok_modify.
    destruct (remove_cut _ _ _ _ _ Hf) as [a' [m [r' [D1 [D2 [D3 [D4 [-> ->]]]]]]]].
    rewrite Hb in D1. rewrite app_length in D3, Hc1.
    assert (Ha : a' = a /\ m = part /\ r' = r).
    { assert (a' = a).
      { apply (f_equal (firstn (length a))) in D1. rewrite !firstn_app_eq in D1 by lia. auto. }
      subst a'. apply app_inv_head in D1.
      assert (m = part).
      { apply (f_equal (firstn (length part))) in D1. rewrite !firstn_app_eq in D1 by lia. auto. }
      subst m. apply app_inv_head in D1. auto. }
    destruct Ha as [-> [-> ->]].
    unfold sub_chk in Hc1. destruct (length part <=? length a + length part) eqn:Em; [|discriminate]. injection Hc1 as <-.
    replace (length a + length part - length part) with (length a) by lia.
    eapply ok_mono; [apply (ok_display E _ _ _ _ (view_cursor (length a) _ _ _ _ V1))|].
    cbv beta. intros _ s' [L1 [L2 L3]].
    rewrite clamp_le in L1 by (unfold cut; cbn [data]; rewrite app_length; lia).
    split; [exists (cut b a part r); split; [exact L1|reflexivity]|].
    destruct L2 as [_ [_ [_ [K1 _]]]]. destruct S1 as [_ [_ [_ [K2 _]]]]. edsimp_in K1. congruence.
  - apply ok_bind, ok_ret. eapply ok_mono; [apply (tab_display E h (a ++ []) r s A)|]. cbv beta. intros _ s' A'.
    rewrite app_nil_r in A'. exact A'.
Qed.

Lemma slice_word : forall (a w : text) d t, is_prefix (a ++ w) d -> slice d (length a) (length (a ++ w)) = Val t -> t = w.
Proof.
  intros a w d t [y ->] H. unfold slice in H. destruct (_ && _); [|discriminate]. injection H as <-.
  rewrite <- app_assoc, skipn_app_eq by reflexivity. rewrite firstn_app_eq; [reflexivity|]. rewrite app_length. lia.
Qed.

(** Reading the word for the completer. *)
Lemma tab_word : forall E s ws a part w r (K : Type) (k : text -> ME K) (Q : K -> ed -> Prop),
  tab_at None (a ++ part) r s ->
  e_words E (a ++ part ++ r) = ws -> increasing ws ->
  at_word ws (a ++ part ++ r) (length (a ++ part)) a part w r ->
  (forall s', tab_at None (a ++ part) r s' -> ed_tty s' = ed_tty s -> ok (k w) s' Q) ->
  ok (wr <- liftr (get_word_before_cursor E false s) ;;
      word <- with_cur_mut (fun b =>
        rbind (match wr with Some (st, en) => buf_range b st en | None => Val [] end)
              (fun w => Val (w, b))) ;; k word) s Q.
Proof.
  intros E s ws a part w r K k Q A Hw HI Hat Hk. pose proof A as [[b [V Hb]] Hh]. rewrite <- app_assoc in Hb.
  destruct (view_line _ _ _ _ V) as [b0 [B1 B2]]. pose proof V as [_ [_ [Vc _]]].
  apply ok_bind, ok_liftr. intros o Ho. apply ok_bind. 
  assert (Hd0 : data b0 = a ++ part ++ r) by congruence.
  pose proof (word_found E s b0 ws _ a part w r o B1 Vc ltac:(rewrite Hd0; exact Hw) HI ltac:(rewrite Hd0; exact Hat) Ho) as F.
  apply ok_in. intros word s1 H1.
  pose proof (ok_of _ _ _ _ _ (ok_mut _ _ _ _ _ V) H1) as [b' [Hf [V1 S1]]].
  assert (Hword : word = w /\ b' = b).
  { destruct F as [[-> [_ Hpre]]|[-> [_ ->]]]; cbn [rbind] in Hf.
    - destruct (buf_range b _ _) as [x|] eqn:Er; [|discriminate]. cbn [rbind] in Hf. injection Hf as -> ->.
      split; [|reflexivity]. unfold buf_range in Er. rewrite Hb in Er. rewrite Hd0 in Hpre.
      exact (slice_word _ _ _ _ Hpre Er).
    - injection Hf as <- <-. auto. }
  destruct Hword as [-> ->]. apply Hk.
  - split; [exists b; split; [exact V1|]; rewrite <- app_assoc; exact Hb|].
    destruct S1 as [_ [_ [_ [S1 _]]]]. congruence.
  - rewrite (with_cur_mut_eq _ _ _ B1) in H1. match type of H1 with (match ?x with _ => _ end) = _ => destruct x as [[q1 q2]|] end;
      [|discriminate]. injection H1 as _ <-. unfold store. destruct (ed_loc s); reflexivity.
Qed.

(** * Tab *)

Lemma ok_tab : forall {K} (core : env -> key -> MK K unit) E x s (Q : ed -> Prop),
  ok (complete E) s (fun _ s' => Q s') ->
  ok (handle_key core E (KChar c_tab)) (x, s) (fun d y => d = false /\ fst y = x /\ Q (snd y)).
Proof.
  intros K core E x s Q H. unfold handle_key. apply ok_gete. apply ok_bind. destruct (cur_buf s) as [b|]; [|exact I].
  unfold ok at 1. cbv zeta. cbv iota. apply ok_bind. rewrite N.eqb_refl. apply ok_bind, ok_lift.
  eapply ok_mono; [exact H|]. intros u s' HQ. apply ok_ret. destruct (e_wok E); [repeat split; auto|exact I].
Qed.

Lemma extends_blen : forall w p, (blen w <? blen p) && prefixb w p = true <-> extends w p.
Proof.
  intros w p. rewrite andb_true_iff, prefixb_iff, Nat.ltb_lt. split.
  - intros [H [r ->]]. destruct r as [|x r]; [rewrite app_nil_r in H; lia|]. exists x, r. reflexivity.
  - intros [x [r ->]]. split; [|exists (x :: r); reflexivity]. rewrite blen_app. cbn [blen].
    pose proof (clen_pos x). lia.
Qed.

(** Nothing to choose from. *)
Lemma complete_none : forall E s ws a part w r, tab_at None (a ++ part) r s ->
  e_words E (a ++ part ++ r) = ws -> increasing ws ->
  at_word ws (a ++ part ++ r) (length (a ++ part)) a part w r ->
  e_complete E w = [] ->
  ok (complete E) s (fun _ s' => tab_at None (a ++ part) r s').
Proof.
  intros E s ws a part w r A Hw HI Hat Hc. unfold complete. apply ok_bind, ok_get. rewrite (proj2 A).
  eapply (tab_word E s ws a part w r); [exact A|exact Hw|exact HI|exact Hat|]. intros s' A' _. rewrite Hc. cbn [sort_texts dedup_adj].
  apply ok_modify. eapply tab_hint. exact A'.
Qed.
Lemma complete_one : forall E s ws a part w r c, tab_at None (a ++ part) r s ->
  e_words E (a ++ part ++ r) = ws -> increasing ws ->
  at_word ws (a ++ part ++ r) (length (a ++ part)) a part w r ->
  choices (e_complete E w) [c] ->
  ok (complete E) s (fun _ s' => tab_at None (a ++ c) r s').
Proof.
  intros E s ws a part w r c A Hw HI Hat Hc. unfold complete. apply ok_bind, ok_get. rewrite (proj2 A).
  eapply (tab_word E s ws a part w r); [exact A|exact Hw|exact HI|exact Hat|]. intros s' A' _.
  rewrite (choices_unique _ _ _ (choices_ok _) Hc). apply ok_bind, ok_modify. apply ok_bind.
  eapply ok_mono; [apply (tab_delete_word E None _ ws a part w r (tab_hint _ None _ _ _ A') Hw HI Hat)|].
  cbv beta. intros _ s2 A2. exact (tab_insert E None a r c s2 A2).
Qed.

(** Drawing the list. *)
Lemma print_comps_in : forall cw cols l i ix hl t, print_comps cw cols i ix hl l = Val t ->
  forall x, In x l -> exists n, In (TStr (x ++ repeat c_sp n)) t.
Proof.
  induction l as [|c l IH]; intros i ix hl t H x Hx; [destruct Hx|]. cbn [print_comps] in H.
  assert (G : forall j pre t0,
    rbind (print_comps cw cols (S j) (S ix) hl l) (fun r => Val (pre ++
      (if match hl with Some h => ix =? h | None => false end then [TFg 0; TBg 7; TStr (pad c cw); TBgReset; TFgReset]
       else [TStr (pad c cw)]) ++ r)) = Val t0 -> exists n, In (TStr (x ++ repeat c_sp n)) t0).
  { intros j pre t0 H0. destruct (print_comps cw cols (S j) (S ix) hl l) as [r|] eqn:Er; [|discriminate].
    cbn [rbind] in H0. injection H0 as <-. destruct Hx as [->|Hx].
    - exists (cw - length x). apply in_or_app. right. apply in_or_app. left.
      destruct (match hl with Some h => ix =? h | None => false end); cbn; unfold pad; auto.
    - destruct (IH _ _ _ _ Er x Hx) as [n Hn]. exists n. apply in_or_app. right. apply in_or_app. right. exact Hn. }
  destruct (i =? cols); [exact (G _ _ _ H)|]. destruct (cols <? i); [discriminate|]. exact (G _ [] _ H).
Qed.
Lemma display_lists : forall E s u s' comps i, ed_hint s = Some (comps, i) -> display E s = ORet u s' ->
  exists toks, ed_tty s' = ed_tty s ++ toks /\ forall x, In x comps -> exists n, In (TStr (x ++ repeat c_sp n)) toks.
Proof.
  intros E s u s' comps i Hh H. destruct (display_impl_of E s u s' H) as [g [_ Hi]].
  pose proof (display_impl_drawn E true (set_sugg g (refreshed s))) as D. rewrite Hi in D.
  destruct D as [pr [rpw [w [tw [b [t [tcl [_ [_ [_ [_ [Er ->]]]]]]]]]]]].
  assert (Ht : ed_tty (set_sugg g (refreshed s)) = ed_tty s /\ ed_hint (set_sugg g (refreshed s)) = ed_hint s).
  { edsimp. unfold refreshed. destruct (is_search s && ed_changed s); [|auto]. unfold refresh_search.
    repeat (match goal with |- context [match ?x with _ => _ end] => destruct x end; try (split; reflexivity)). }
  destruct Ht as [Ht1 Ht2].
  exists t. split; [unfold shown; edsimp; rewrite <- Ht1; reflexivity|].
  set (s1 := set_sugg g (refreshed s)) in *. 
  assert (Hh' : ed_hint (set_cursor (clamp_cursor (ed_noeol s1) (num_chars b) (ed_cursor s1)) s1) = Some (comps, i)).
  { edsimp. congruence. }
  revert Er. generalize (set_cursor (clamp_cursor (ed_noeol s1) (num_chars b) (ed_cursor s1)) s1) Hh'. intros s2 Hh2 Er.
  unfold display_render in Er. rewrite Hh2 in Er.
  do 4 (match type of Er with rbind ?x _ = _ => destruct x as [?v|]; [cbn [rbind] in Er|discriminate] end).
  destruct (print_completion_list w comps i) as [[tc nl]|] eqn:Ec; [|discriminate]. cbn [rbind] in Er.
  match type of Er with rbind ?x _ = _ => destruct x as [tl|]; [|discriminate] end. cbn [rbind] in Er.
  match type of Er with rbind ?x _ = _ => destruct x as [tu|]; [|discriminate] end. cbn [rbind] in Er.
  injection Er as <- _. unfold print_completion_list in Ec.
  destruct (completion_cols w comps) as [cw cols].
  destruct (print_comps cw cols 0 0 i comps) as [tk|] eqn:Ek; [|discriminate]. cbn [rbind] in Ec. injection Ec as <- _.
  intros x Hx. destruct (print_comps_in _ _ _ _ _ _ _ Ek x Hx) as [n Hn]. exists n.
  right. apply in_or_app. right. cbn [app]. right. right. apply in_or_app. left. apply in_or_app. left. exact Hn.
Qed.

Lemma complete_several : forall E s ws a part w r c1 c2 l p, tab_at None (a ++ part) r s ->
  e_words E (a ++ part ++ r) = ws -> increasing ws ->
  at_word ws (a ++ part ++ r) (length (a ++ part)) a part w r ->
  choices (e_complete E w) (c1 :: c2 :: l) -> longest_common (c1 :: c2 :: l) p ->
  ok (complete E) s (fun _ s' =>
    (extends w p /\ tab_at None (a ++ p) r s') \/
    (~ extends w p /\ tab_at (Some (c1 :: c2 :: l, None)) (a ++ part) r s' /\
     exists toks, ed_tty s' = ed_tty s ++ toks /\
       forall x, In x (c1 :: c2 :: l) -> exists n, In (TStr (x ++ repeat c_sp n)) toks)).
Proof.
  intros E s ws a part w r c1 c2 l p A Hw HI Hat Hc [Hp1 Hp2]. unfold complete. apply ok_bind, ok_get. rewrite (proj2 A).
  eapply (tab_word E s ws a part w r); [exact A|exact Hw|exact HI|exact Hat|]. intros s' A' Htty.
  rewrite (choices_unique _ _ _ (choices_ok _) Hc).
  assert (Show : ~ extends w p -> ok (modify (set_hint (Some (c1 :: c2 :: l, None))) ;;; display E) s' (fun _ s' =>
    (extends w p /\ tab_at None (a ++ p) r s') \/
    (~ extends w p /\ tab_at (Some (c1 :: c2 :: l, None)) (a ++ part) r s' /\
     exists toks, ed_tty s' = ed_tty s ++ toks /\
       forall x, In x (c1 :: c2 :: l) -> exists n, In (TStr (x ++ repeat c_sp n)) toks))).
  { intro Hn. apply ok_bind, ok_modify. apply ok_in. intros u s2 H2. right. split; [exact Hn|]. split.
    - exact (ok_of _ _ _ _ _ (tab_display E _ _ _ _ (tab_hint _ (Some (c1 :: c2 :: l, None)) _ _ _ A')) H2).
    - destruct (display_lists E (set_hint (Some (c1 :: c2 :: l, None)) s') u s2 (c1 :: c2 :: l) None eq_refl H2) as [toks [K1 K2]].
      exists toks. split; [|exact K2]. rewrite K1. edsimp. rewrite Htty. reflexivity. }
  pose proof (flcp_spec c1 c2 l) as F.
  destruct (find_longest_common_prefix (c1 :: c2 :: l)) as [q|].
  - destruct F as [_ [F1 F2]].
    assert (q = p).
    { apply (common_prefix_unique q p (c1 :: c2 :: l) c1 (or_introl eq_refl) F1 Hp1). apply Nat.le_antisymm; auto. }
    subst q. destruct ((blen w <? blen p) && prefixb w p) eqn:Eb.
    + apply extends_blen in Eb. apply ok_bind.
      eapply ok_mono; [apply (tab_delete_word E None _ ws a part w r A' Hw HI Hat)|].
      cbv beta. intros _ s2 A2. eapply ok_mono; [exact (tab_insert E None a r p s2 A2)|]. auto.
    + apply Show. intro Hx. apply extends_blen in Hx. congruence.
  - apply Show. intros [x [y Hx]]. specialize (F p Hp1). subst p. destruct w; discriminate.
Qed.

(** * Cycling *)

Lemma words_none_flag : forall t i f f', words_loop i None f t = words_loop i None f' t.
Proof. intros [|c t] i f f'; reflexivity. Qed.

(** Scanning a prefix. *)
Lemma words_app : forall a i ws f, (forall st, ws = Some st -> st < i) ->
  exists l ws' f', (forall t, words_loop i ws f (a ++ t) = l ++ words_loop (i + length a) ws' f' t) /\
    (forall st, ws' = Some st -> st < i + length a).
Proof.
  induction a as [|c a IH]; intros i ws f Hs.
  - exists [], ws, f. cbn [length]. rewrite Nat.add_0_r. auto.
  - assert (G : forall ws1 f1 pre, (forall st, ws1 = Some st -> st < S i) ->
      (forall t, words_loop i ws f ((c :: a) ++ t) = pre ++ words_loop (S i) ws1 f1 (a ++ t)) ->
      exists l ws' f', (forall t, words_loop i ws f ((c :: a) ++ t) = l ++ words_loop (i + length (c :: a)) ws' f' t) /\
        (forall st, ws' = Some st -> st < i + length (c :: a))).
    { intros ws1 f1 pre Hs1 He. destruct (IH (S i) ws1 f1 Hs1) as [l [ws' [f' [H1 H2]]]].
      exists (pre ++ l), ws', f'. cbn [length]. replace (i + S (length a)) with (S i + length a) by lia.
      split; [|exact H2]. intro t. rewrite He, H1, app_assoc. reflexivity. }
    cbn [app words_loop] in G |- *.
    destruct (N.eqb c c_bs) eqn:Eb.
    { apply (G ws true []); [|reflexivity]. intros st Hst. specialize (Hs st Hst). lia. }
    destruct ws as [st|].
    + destruct (N.eqb c c_sp && negb f).
      * apply (G None false [(st, i)]); [discriminate|reflexivity].
      * apply (G (Some st) false []); [|reflexivity]. intros st' E. injection E as <-. specialize (Hs st eq_refl). lia.
    + destruct (negb (N.eqb c c_sp)).
      * apply (G (Some i) false []); [|reflexivity]. intros st' E. injection E as <-. lia.
      * apply (G None false []); [discriminate|reflexivity].
Qed.
(** An open word is continued. *)
Lemma words_open : forall t i st f, exists e l, words_loop i (Some st) f t = (st, e) :: l /\ i <= e.
Proof.
  induction t as [|c t IH]; intros i st f; cbn [words_loop]; [eauto|].
  assert (G : forall f', exists e l, words_loop (S i) (Some st) f' t = (st, e) :: l /\ i <= e).
  { intro f'. destruct (IH (S i) st f') as [e [l [H1 H2]]]. exists e, l. split; [exact H1|lia]. }
  destruct (N.eqb c c_bs); [apply G|]. destruct (N.eqb c c_sp && negb f); [|apply G]. eauto.
Qed.

(** [a] leaves no word open. *)
Definition closed (a : text) : Prop :=
  exists l, forall t, get_buffer_words (a ++ t) = l ++ words_loop (length a) None false t.

Lemma at_word_closed : forall t c a part w r, at_word (get_buffer_words t) t c a part w r -> closed a.
Proof.
  intros t c a part w r [H1 [H2 H3]].
  destruct (words_app a 0 None false) as [l [ws' [f' [G1 G2]]]]; [discriminate|]. cbn [Nat.add] in G1, G2.
  destruct ws' as [st|].
  - exfalso. specialize (G2 st eq_refl).
    assert (Ht : exists e l2, get_buffer_words t = l ++ (st, e) :: l2 /\ length a <= e).
    { unfold get_buffer_words. rewrite H1, G1. destruct (words_open (part ++ r) (length a) st f') as [e [l2 [K1 K2]]].
      exists e, l2. rewrite K1. auto. }
    destruct Ht as [e [l2 [K1 K2]]]. pose proof (default_increasing t) as HI.
    assert (Hin : In (st, e) (get_buffer_words t)) by (rewrite K1; apply in_or_app; right; left; reflexivity).
    destruct H3 as [[x [D1 [D2 _]]]|[D1 [D2 D3]]].
    + destruct (get_buffer_words_ok t) as [_ [Hap _]].
      apply In_nth_error in Hin as [i Hi]. apply In_nth_error in D1 as [j Hj].
      assert (Ap : forall ws, apart ws -> forall i j s e s' e', i < j -> nth_error ws i = Some (s, e) ->
        nth_error ws j = Some (s', e') -> e < s').
      { clear. intros ws HA. induction HA as [|s e H|s e s' e' l H1 H2 HA IH]; intros i j x y x' y' Hij E1 E2.
        - destruct i; discriminate.
        - destruct j as [|[|j]]; [lia|discriminate|discriminate].
        - destruct i as [|i]; destruct j as [|j]; try lia.
          + cbn in E1. injection E1 as <- <-. destruct j as [|j]; [cbn in E2; injection E2 as <- <-; exact H2|].
            pose proof (IH 0 (S j) s' e' x' y' ltac:(lia) eq_refl E2).
            pose proof (inc_pos _ (apart_inc _ HA) 0 s' e' eq_refl). lia.
          + cbn [nth_error] in E1, E2. exact (IH i j _ _ _ _ ltac:(lia) E1 E2). }
      destruct (lt_eq_lt_dec i j) as [[Hl| ->]|Hl].
      * pose proof (Ap _ Hap _ _ _ _ _ _ Hl Hi Hj). lia.
      * rewrite Hi in Hj. injection Hj as K _. lia.
      * pose proof (Ap _ Hap _ _ _ _ _ _ Hl Hj Hi). pose proof (inc_pos _ HI _ _ _ Hj). lia.
    + subst part. rewrite app_nil_r in H2. apply (D1 _ _ Hin). lia.
  - exists l. intro u. unfold get_buffer_words. rewrite G1. f_equal. apply words_none_flag.
Qed.

Lemma word_continues : forall c' x r i st f,
  (f = true -> x = c_bs) -> (f = false -> x <> c_bs) ->
  (forall k, 0 < k <= length c' -> nth_error (x :: c') k = Some c_sp -> nth_error (x :: c') (k - 1) = Some c_bs) ->
  exists e l, words_loop i (Some st) f (c' ++ r) = (st, e) :: l /\ i + length c' <= e.
Proof.
  induction c' as [|y c' IH]; intros x r i st f F1 F2 H.
  - cbn [app length]. destruct (words_open r i st f) as [e [l [K1 K2]]]. exists e, l. split; [exact K1|lia].
  - cbn [app words_loop length].
    assert (Hn : forall k, 0 < k <= length c' -> nth_error (y :: c') k = Some c_sp -> nth_error (y :: c') (k - 1) = Some c_bs).
    { intros k Hk E. pose proof (H (S k)) as K. cbn [length] in K. specialize (K ltac:(lia) E).
      replace (S k - 1) with k in K by lia. destruct k as [|k]; [lia|]. cbn [nth_error] in K.
      replace (S k - 1) with k by lia. exact K. }
    assert (G : forall f', (f' = true -> y = c_bs) -> (f' = false -> y <> c_bs) ->
      exists e l, words_loop (S i) (Some st) f' (c' ++ r) = (st, e) :: l /\ i + S (length c') <= e).
    { intros f' A1 A2. destruct (IH y r (S i) st f' A1 A2 Hn) as [e [l [K1 K2]]]. exists e, l. split; [exact K1|lia]. }
    destruct (N.eqb y c_bs) eqn:Eb.
    { apply N.eqb_eq in Eb. apply G; [auto|discriminate]. }
    apply N.eqb_neq in Eb.
    destruct (N.eqb y c_sp) eqn:Es; cbn [andb]; [|apply G; [discriminate|auto]].
    apply N.eqb_eq in Es. subst y.
    pose proof (H 1) as K. cbn [length nth_error Nat.sub] in K. specialize (K ltac:(lia) eq_refl). injection K as ->.
    destruct f; [|exfalso; apply F2; reflexivity]. cbn [negb]. apply G; [discriminate|auto].
Qed.

Lemma single_word_at : forall a c r, closed a -> single_word c ->
  exists w, at_word (get_buffer_words (a ++ c ++ r)) (a ++ c ++ r) (length (a ++ c)) a c w r.
Proof.
  intros a c r [l Ha] [Hw _]. apply Forall_inv in Hw. destruct Hw as [W1 [W2 [[x [W3 [W4 W5]]] [W6 _]]]].
  destruct c as [|y c]; [cbn in W1; lia|]. cbn in W3. injection W3 as ->.
  specialize (Ha ((x :: c) ++ r)). cbn [app words_loop] in Ha.
  apply N.eqb_neq in W5. rewrite W5 in Ha. apply N.eqb_neq in W4. rewrite W4 in Ha. cbn [negb] in Ha.
  destruct (word_continues c x r (S (length a)) (length a) false) as [e [l2 [K1 K2]]];
    [discriminate|intros _; apply N.eqb_neq; exact W5| |].
  { intros k Hk. apply W6. cbn [length]. lia. }
  rewrite K1 in Ha.
  assert (Hin : In (length a, e) (get_buffer_words (a ++ (x :: c) ++ r))).
  { cbn [app]. rewrite Ha. apply in_or_app. right. left. reflexivity. }
  destruct (get_buffer_words_ok (a ++ (x :: c) ++ r)) as [Hall _]. rewrite Forall_forall in Hall.
  destruct (Hall _ Hin) as [_ [He _]]. rewrite !app_length in He. cbn [length] in He.
  set (n := e - (length a + S (length c))).
  assert (Hn : n <= length r) by (unfold n; lia).
  exists ((x :: c) ++ firstn n r). split; [reflexivity|]. split; [reflexivity|]. left.
  exists (firstn n r). split; [|split; [discriminate|split; [reflexivity|exists (skipn n r); symmetry; apply firstn_skipn]]].
  replace (length (a ++ (x :: c) ++ firstn n r)) with e; [exact Hin|].
  rewrite !app_length, firstn_length, Nat.min_l by exact Hn. cbn [length]. unfold n. lia.
Qed.

(** The selected candidate is on the line. *)
Definition selected (comps : list text) (i : nat) (a r : text) (s : ed) : Prop :=
  exists c, nth_error comps i = Some c /\ tab_at (Some (comps, Some i)) (a ++ c) r s.

Lemma complete_first : forall E s a part w r comps, comps <> [] ->
  tab_at (Some (comps, None)) (a ++ part) r s -> e_words E = get_buffer_words ->
  at_word (get_buffer_words (a ++ part ++ r)) (a ++ part ++ r) (length (a ++ part)) a part w r ->
  ok (complete E) s (fun _ s' => selected comps 0 a r s').
Proof.
  intros E s a part w r comps Hne A HE Hat. unfold complete. apply ok_bind, ok_get. rewrite (proj2 A).
  apply ok_bind, ok_modify. apply ok_bind. apply (ok_liftr (Val 0)). intros i Hi. injection Hi as <-.
  apply ok_bind, ok_ret. apply ok_bind.
  eapply ok_mono; [apply (tab_delete_word E None _ (get_buffer_words (a ++ part ++ r)) a part w r (tab_hint _ None _ _ _ A));
    [rewrite HE; reflexivity|apply default_increasing|exact Hat]|].
  cbv beta. intros _ s2 A2. apply ok_bind, ok_liftr. intros c Hc. apply ok_bind.
  eapply ok_mono; [exact (tab_insert E None a r c s2 A2)|]. cbv beta. intros _ s3 A3. apply ok_bind, ok_modify.
  eapply ok_mono; [apply (tab_display E _ _ _ _ (tab_hint _ (Some (comps, Some 0)) _ _ _ A3))|].
  cbv beta. intros _ s4 A4. exists c. split; [|exact A4].
  unfold index in Hc. destruct (nth_error comps 0); [congruence|discriminate].
Qed.

Lemma complete_next : forall E s a r comps i, closed a ->
  ((forall c, In c comps -> single_word c) \/ (a = [] /\ r = [])) ->
  selected comps i a r s -> e_words E = get_buffer_words ->
  ok (complete E) s (fun _ s' => selected comps ((i + 1) mod length comps) a r s').
Proof.
  intros E s a r comps i Ha Hs [c [Hc A]] HE. unfold complete. apply ok_bind, ok_get. rewrite (proj2 A).
  apply ok_bind, ok_modify. apply ok_bind, ok_liftr. intros j Hj.
  assert (Hj' : j = (i + 1) mod length comps).
  { destruct (length comps =? 0); [discriminate|]. injection Hj as <-. reflexivity. }
  subst j. clear Hj.
  pose proof (tab_hint _ None _ _ _ A) as A1. pose proof A1 as [[b [V Hb]] _].
  assert (Fin : forall s2, tab_at None a r s2 ->
    ok (c0 <- liftr (index comps ((i + 1) mod length comps)) ;;
        insert_str_after_cursor E c0 ;;;
        modify (set_hint (Some (comps, Some ((i + 1) mod length comps)))) ;;; display E) s2
       (fun _ s' => selected comps ((i + 1) mod length comps) a r s')).
  { intros s2 A2. apply ok_bind, ok_liftr. intros c2 Hc2. apply ok_bind.
    eapply ok_mono; [exact (tab_insert E None a r c2 s2 A2)|]. cbv beta. intros _ s3 A3. apply ok_bind, ok_modify.
    eapply ok_mono; [apply (tab_display E _ _ _ _ (tab_hint _ (Some (comps, Some ((i + 1) mod length comps))) _ _ _ A3))|].
    cbv beta. intros _ s4 A4. exists c2. split; [|exact A4].
    unfold index in Hc2. destruct (nth_error comps ((i + 1) mod length comps)); [congruence|discriminate]. }
  apply ok_bind. eapply ok_seq; [apply (ok_get_cur _ _ _ _ V)|]. intros x s1 [-> Hx]. rewrite Hb, <- app_assoc in Hx.
  apply ok_bind, ok_liftr. intros c' Hc'. assert (c' = c) by (unfold index in Hc'; rewrite Hc in Hc'; congruence). subst c'.
  apply ok_ret. destruct (buf_eqb x (buf_of c)) eqn:Eq.
  - unfold buf_eqb in Eq. apply text_eqb_eq in Eq. cbn [data buf_of] in Eq.
    assert (Hnil : a = [] /\ r = []).
    { rewrite Hx in Eq. apply (f_equal (@length N)) in Eq. rewrite !app_length in Eq.
      split; [destruct a|destruct r]; try reflexivity; cbn [length] in Eq; lia. }
    destruct Hnil as [-> ->]. apply ok_bind. apply ok_bind.
    eapply ok_mono; [apply (ok_mut _ _ _ _ _ V)|]. cbv beta. intros u s2 [b' [Hf [V2 S2]]].
    apply ok_modify. apply Fin. split.
    + exists b'. split; [exact (view_cursor 0 _ _ _ _ V2)|]. cbn [app].
      unfold unit_op in Hf. destruct (buf_truncate b 0) as [b2|] eqn:Et; [|discriminate]. cbn [rbind] in Hf.
      injection Hf as _ <-. change 0 with (@length N []) in Et; rewrite (truncate_app b [] (data b) eq_refl) in Et. injection Et as <-. reflexivity.
    + destruct S2 as [_ [_ [_ [S2 _]]]]. edsimp. rewrite S2. reflexivity.
  - destruct Hs as [Hs|[-> ->]].
    + destruct (single_word_at a c r Ha (Hs c (nth_error_In _ _ Hc))) as [w Hat].
      apply ok_bind.
      eapply ok_mono; [apply (tab_delete_word E None _ (get_buffer_words (a ++ c ++ r)) a c w r A1); [rewrite HE; reflexivity|apply default_increasing|exact Hat]|].
      cbv beta. intros _ s2 A2. apply Fin. exact A2.
    + exfalso. cbn [app] in Hx. rewrite app_nil_r in Hx.
      assert (buf_eqb x (buf_of c) = true) by (unfold buf_eqb; apply text_eqb_eq; exact Hx). congruence.
Qed.

(** * Keys *)

Lemma tab_of_line : forall s a part r, line_is s (a ++ part ++ r) (length (a ++ part)) -> is_search s = false ->
  ed_noeol s = false -> tab_at (ed_hint s) (a ++ part) r s.
Proof.
  intros s a part r [b [H1 [H2 H3]]] Hs Hn. split; [|reflexivity].
  pose proof (view_of s b Hs H1) as V. rewrite H3, Hn in V. exists (opened s b). split; [exact V|].
  rewrite data_opened, H2, app_assoc. reflexivity.
Qed.
Lemma tab_line : forall h a r s, tab_at h a r s -> line_is s (a ++ r) (length a).
Proof.
  intros h a r s [[b [V Hb]] _]. destruct (view_line _ _ _ _ V) as [b0 [B1 B2]]. pose proof V as [_ [_ [Vc _]]].
  exists b0. split; [exact B1|]. split; [congruence|exact Vc].
Qed.

Lemma word_exists : forall t c, c <= length t -> exists a part w r, at_word (get_buffer_words t) t c a part w r.
Proof.
  intros t c Hc. set (ws := get_buffer_words t).
  destruct (find (fun p : nat * nat => (fst p <? c) && (c <=? snd p)) ws) as [[s e]|] eqn:Ef.
  - apply find_some in Ef as [Hin Hp]. cbn [fst snd] in Hp. apply andb_true_iff in Hp as [P1 P2].
    apply Nat.ltb_lt in P1. apply Nat.leb_le in P2.
    destruct (get_buffer_words_ok t) as [Hall _]. rewrite Forall_forall in Hall. destruct (Hall _ Hin) as [_ [He _]].
    exists (firstn s t), (firstn (c - s) (skipn s t)), (firstn (e - s) (skipn s t)), (skipn c t).
    assert (La : length (firstn s t) = s) by (rewrite firstn_length; lia).
    assert (Lw : forall x, x <= e -> s <= x -> length (firstn (x - s) (skipn s t)) = x - s).
    { intros x X1 X2. rewrite firstn_length, skipn_length. lia. }
    assert (Eq : skipn c t = skipn (c - s) (skipn s t)).
    { rewrite <- (firstn_skipn s t) at 1. rewrite skipn_app, La, skipn_all2 by lia. reflexivity. }
    split; [|split; [|left; exists (firstn (e - c) (skipn c t))]].
    + rewrite Eq, firstn_skipn, firstn_skipn. reflexivity.
    + rewrite app_length, La, Lw by lia. lia.
    + split; [|split; [|split]].
      * rewrite app_length, La, Lw by lia. replace (s + (e - s)) with e by lia. exact Hin.
      * intro K. apply (f_equal (@length N)) in K. rewrite Lw in K by lia. cbn in K. lia.
      * rewrite Eq. rewrite <- (firstn_skipn (c - s) (firstn (e - s) (skipn s t))). f_equal.
        -- rewrite firstn_firstn. f_equal. lia.
        -- rewrite skipn_firstn_comm. f_equal. lia.
      * exists (skipn (e - c) (skipn c t)). symmetry. apply firstn_skipn.
  - exists (firstn c t), [], [], (skipn c t). split; [cbn [app]; symmetry; apply firstn_skipn|].
    split; [rewrite app_nil_r, firstn_length; lia|]. right. split; [|auto].
    intros s e Hin [K1 K2]. pose proof (find_none _ _ Ef _ Hin) as K. cbn [fst snd] in K.
    apply andb_false_iff in K as [K|K]; [apply Nat.ltb_ge in K|apply Nat.leb_gt in K]; lia.
Qed.

Lemma tab_single : forall K (core : env -> key -> MK K unit) E x s t c a part w r z d x' s',
  line_is s t c -> is_search s = false -> ed_noeol s = false -> ed_hint s = None -> increasing (e_words E t) ->
  at_word (e_words E t) t c a part w r -> e_complete E w <> [] -> (forall y, In y (e_complete E w) -> y = z) ->
  handle_key core E (KChar c_tab) (x, s) = ORet d (x', s') ->
  d = false /\ x' = x /\ line_is s' (a ++ z ++ r) (length (a ++ z)).
Proof.
  intros K core E x s t c a part w r z d x' s' Hl Hs Hn Hh HI Hat Hne Hall H. pose proof Hat as [Ht [Hc _]]. subst t c.
  pose proof (tab_of_line s a part r Hl Hs Hn) as A. rewrite Hh in A.
  assert (Hch : choices (e_complete E w) [z]).
  { split; [repeat constructor|]. intro y. split.
    - intros [<-|[]]. destruct (e_complete E w) as [|y l] eqn:Ey; [congruence|]. left. apply Hall. left. reflexivity.
    - intro Hy. left. symmetry. auto. }
  pose proof (ok_of _ _ _ _ _ (ok_tab core E x s _ (complete_one E s _ a part w r z A eq_refl HI Hat Hch)) H) as [Hd [Hx A']].
  cbn [fst snd] in Hx, A'. split; [exact Hd|]. split; [exact Hx|]. apply tab_line in A'. rewrite <- app_assoc in A'. exact A'.
Qed.

Lemma tab_none : forall K (core : env -> key -> MK K unit) E x s t c a part w r d x' s',
  line_is s t c -> is_search s = false -> ed_noeol s = false -> ed_hint s = None -> increasing (e_words E t) ->
  at_word (e_words E t) t c a part w r -> e_complete E w = [] ->
  handle_key core E (KChar c_tab) (x, s) = ORet d (x', s') ->
  d = false /\ x' = x /\ line_is s' t c.
Proof.
  intros K core E x s t c a part w r d x' s' Hl Hs Hn Hh HI Hat Hne H. pose proof Hat as [Ht [Hc _]]. subst t c.
  pose proof (tab_of_line s a part r Hl Hs Hn) as A. rewrite Hh in A.
  pose proof (ok_of _ _ _ _ _ (ok_tab core E x s _ (complete_none E s _ a part w r A eq_refl HI Hat Hne)) H) as [Hd [Hx A']].
  cbn [fst snd] in Hx, A'. split; [exact Hd|]. split; [exact Hx|]. apply tab_line in A'. rewrite <- app_assoc in A'. exact A'.
Qed.

Lemma tab_several : forall K (core : env -> key -> MK K unit) E x s t c a part w r l p d x' s',
  line_is s t c -> is_search s = false -> ed_noeol s = false -> ed_hint s = None -> increasing (e_words E t) ->
  at_word (e_words E t) t c a part w r -> choices (e_complete E w) l -> 1 < length l -> longest_common l p ->
  handle_key core E (KChar c_tab) (x, s) = ORet d (x', s') ->
  d = false /\ x' = x /\
  (extends w p -> line_is s' (a ++ p ++ r) (length (a ++ p)) /\ ed_hint s' = None) /\
  (~ extends w p -> line_is s' t c /\ ed_hint s' = Some (l, None) /\
     exists toks, ed_tty s' = ed_tty s ++ toks /\
       forall y, In y l -> exists n, In (TStr (y ++ repeat c_sp n)) toks).
Proof.
  intros K core E x s t c a part w r l p d x' s' Hl Hs Hn Hh HI Hat Hc Hlen Hp H. pose proof Hat as [Ht [Hcc _]]. subst t c.
  pose proof (tab_of_line s a part r Hl Hs Hn) as A. rewrite Hh in A.
  destruct l as [|c1 [|c2 l]]; try (cbn in Hlen; lia).
  pose proof (ok_of _ _ _ _ _ (ok_tab core E x s _ (complete_several E s _ a part w r c1 c2 l p A eq_refl HI Hat Hc Hp)) H) as [Hd [Hx A']].
  cbn [fst snd] in Hx, A'. split; [exact Hd|]. split; [exact Hx|].
  destruct A' as [[X A']|[X [A' Hshow]]].
  - split; [|intro; contradiction]. intros _. split; [|exact (proj2 A')]. apply tab_line in A'. rewrite <- app_assoc in A'. exact A'.
  - split; [intro; contradiction|]. intros _. split; [|split; [exact (proj2 A')|exact Hshow]].
    apply tab_line in A'. rewrite <- app_assoc in A'. exact A'.
Qed.

Lemma tab_run : forall K (core : env -> key -> MK K unit) comps a r l n i x s d x' s',
  (forall y, In y comps -> single_word y) \/ (a = [] /\ r = []) -> closed a ->
  map snd l = repeat (KChar c_tab) n -> (forall p, In p l -> e_words (fst p) = get_buffer_words) ->
  selected comps i a r s -> run_keys core l (x, s) = ORet d (x', s') ->
  d = false /\ x' = x /\ selected comps ((i + n) mod length comps) a r s'.
Proof.
  intros K core comps a r l. induction l as [|[E k] l IH]; intros n i x s d x' s' Hs Ha Hl HE Hsel H.
  - destruct n; [|discriminate]. cbn [run_keys] in H. injection H as <- <- <-. split; [reflexivity|]. split; [reflexivity|].
    rewrite Nat.add_0_r. pose proof Hsel as [c [Hc _]]. assert (i < length comps) by (apply nth_error_Some; congruence).
    rewrite Nat.mod_small by assumption. exact Hsel.
  - destruct n as [|n]; [discriminate|]. injection Hl as -> Hl. cbn [run_keys] in H.
    apply bind_inv in H as [d1 [[x1 s1] [H1 H2]]].
    pose proof (HE (E, KChar c_tab) (or_introl eq_refl)) as HE1. cbn [fst] in HE1.
    pose proof (ok_of _ _ _ _ _ (ok_tab core E x s _ (complete_next E s a r comps i Ha Hs Hsel HE1)) H1) as [-> [Hx A1]].
    cbn [fst snd] in Hx, A1. subst x1. cbv iota in H2.
    destruct (IH n _ _ _ _ _ _ Hs Ha Hl (fun p Hp => HE p (or_intror Hp)) A1 H2) as [D1 [D2 D3]].
    split; [exact D1|]. split; [exact D2|].
    pose proof Hsel as [c [Hc _]]. assert (i < length comps) by (apply nth_error_Some; congruence).
    replace ((i + S n) mod length comps) with (((i + 1) mod length comps + n) mod length comps); [exact D3|].
    rewrite Nat.add_mod_idemp_l by lia. f_equal. lia.
Qed.

Lemma tab_cycle : forall K (core : env -> key -> MK K unit) x s t c a part w r comps l n z d x' s',
  line_is s t c -> is_search s = false -> ed_noeol s = false -> ed_hint s = Some (comps, None) ->
  at_word (get_buffer_words t) t c a part w r ->
  (forall y, In y comps -> single_word y) \/ (a = [] /\ r = []) ->
  map snd l = repeat (KChar c_tab) (S n) -> (forall p, In p l -> e_words (fst p) = get_buffer_words) ->
  nth_error comps (n mod length comps) = Some z ->
  run_keys core l (x, s) = ORet d (x', s') ->
  d = false /\ x' = x /\ line_is s' (a ++ z ++ r) (length (a ++ z)).
Proof.
  intros K core x s t c a part w r comps l n z d x' s' Hl Hs Hn Hh Hat Hsw Hk HE Hz H.
  pose proof (at_word_closed _ _ _ _ _ _ Hat) as Ha. pose proof Hat as [Ht [Hc _]]. subst t c.
  pose proof (tab_of_line s a part r Hl Hs Hn) as A. rewrite Hh in A.
  destruct l as [|[E k] l]; [discriminate|]. injection Hk as -> Hk. cbn [run_keys] in H.
  apply bind_inv in H as [d1 [[x1 s1] [H1 H2]]].
  assert (Hne : comps <> []) by (intros ->; destruct (n mod length (@nil text)); discriminate).
  pose proof (HE (E, KChar c_tab) (or_introl eq_refl)) as HE1. cbn [fst] in HE1.
  pose proof (ok_of _ _ _ _ _ (ok_tab core E x s _ (complete_first E s a part w r comps Hne A HE1 Hat)) H1) as [-> [Hx A1]].
  cbn [fst snd] in Hx, A1. subst x1. cbv iota in H2.
  destruct (tab_run _ core comps a r l n 0 x s1 d x' s' Hsw Ha Hk (fun p Hp => HE p (or_intror Hp)) A1 H2) as [D1 [D2 [z' [D3 D4]]]].
  split; [exact D1|]. split; [exact D2|]. cbn [Nat.add] in D3. assert (z' = z) by congruence. subst z'.
  apply tab_line in D4. rewrite <- app_assoc in D4. exact D4.
Qed.
