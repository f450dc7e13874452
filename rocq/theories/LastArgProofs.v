(** Alt-. in the Emacs key map. *)
From Verif Require Import Base Utf8 BufferModel UtilModel HistoryModel EditorState EditorModel
  KeymapModel MonadLemmas EditorLemmas CursorProofs Lemmas BufferSpec BufferProofs TextProofs HistorySpec HistoryProofs
  EditorSpec EditorProofs SuggestProofs EditorOps EmacsSpec EmacsProofs.
Local Open Scope monad_scope.

Definition dot : key := KAlt (ch ".").

Lemma ok_dot : forall E x s (Q : emacs * ed -> Prop),
  ok (handle_last_arg_fetch E) (x, s) (fun _ y => Q (fst y, set_hint None (snd y))) ->
  ok (handle_key emacs_core E dot) (x, s) (fun d y => d = false /\ Q y).
Proof.
  intros E x s Q H. unfold handle_key. apply ok_gete. apply ok_bind. destruct (cur_buf s) as [b|]; [|exact I].
  unfold ok at 1. cbv zeta. unfold dot. apply ok_bind, ok_bind.
  unfold emacs_core. change (is_char (ch ".") ".") with true. cbv iota. apply ok_bind, ok_ret.
  change (emacs_alt E (ch ".")) with (handle_last_arg_fetch E). eapply ok_mono; [exact H|].
  intros u [x' s'] HQ. apply ok_bind, ok_mod_ed, ok_ret. destruct (e_wok E); [split; auto|exact I].
Qed.

(** The line is [a ++ r] with the cursor between; what else matters. *)
Definition at_ (hs : list text) (loc : option nat) (a r : text) (s : ed) : Prop :=
  (exists b, view s b (length a) false /\ data b = a ++ r) /\ ed_loc s = loc /\ texts (ed_history s) = hs.

Lemma at_hint : forall hs loc a r s, at_ hs loc a r s -> at_ hs loc a r (set_hint None s).
Proof.
  intros hs loc a r s [[b [V Hb]] [H1 H2]]. split; [|auto]. exists b. split; [|exact Hb]. exact (view_hint None _ _ _ _ V).
Qed.
Lemma at_lands : forall hs loc a r s b a' r' s', at_ hs loc a r s -> lands s b (length a') false s' -> data b = a' ++ r' ->
  at_ hs loc a' r' s'.
Proof.
  intros hs loc a r s b a' r' s' [_ [H1 H2]] [V [S _]] Hd. split; [exists b; auto|].
  destruct S as [S1 [S2 _]]. split; congruence.
Qed.
Lemma at_insert : forall E hs loc a r t s, at_ hs loc a r s ->
  ok (insert_chars_after_cursor E t) s (fun _ s' => at_ hs loc (a ++ t) r s').
Proof.
  intros E hs loc a r t s A. pose proof A as [[b [V Hb]] _].
  eapply ok_mono; [apply (ok_insert E t s b _ _ a r V Hb eq_refl)|]. cbv beta. intros _ s' L.
  rewrite clamp_le in L by (rewrite !app_length; lia).
  eapply at_lands; [exact A|exact L|]. unfold put. cbn [data]. rewrite <- app_assoc. reflexivity.
Qed.
Lemma at_delete : forall E hs loc t w s, at_ hs loc (t ++ w) [] s ->
  ok (delete_until E (length t)) s (fun _ s' => at_ hs loc t [] s').
Proof.
  intros E hs loc t w s A. pose proof A as [[b [V Hb]] _]. rewrite app_nil_r in Hb.
  eapply ok_mono; [apply (ok_delete_until E (length t) _ _ _ _ V)|]. cbv beta.
  intros _ s' [a [m [r [H1 [H2 [H3 L]]]]]].
  rewrite app_length in H2, H3. rewrite Nat.min_r in H2 by lia.
  assert (Ha : a = t /\ m ++ r = w).
  { rewrite Hb in H1. split.
    - apply (f_equal (firstn (length t))) in H1. rewrite !firstn_app_eq in H1 by lia. auto.
    - apply (f_equal (skipn (length t))) in H1. rewrite !skipn_app_eq in H1 by lia. auto. }
  destruct Ha as [-> <-]. rewrite app_length in H3.
  assert (r = []) by (destruct r; [reflexivity|cbn [length] in H3; lia]). subst r.
  rewrite clamp_le in L by (rewrite app_nil_r; lia).
  eapply at_lands; [exact A|exact L|reflexivity].
Qed.

Lemma at_fetch : forall hs loc a r s i b, at_ hs loc a r s -> hist_get (ed_history s) i = Val b ->
  nth_error hs i = Some (data b).
Proof. intros hs loc a r s i b [_ [_ <-]] H. apply hist_get_texts. exact H. Qed.

(** What an entry [e] contributes. *)
Definition gives (e w : text) : Prop := is_last_word w e \/ (w = [] /\ forall c, In c e -> c = c_sp).
Lemma gives_arg : forall b w, gives (data b) w -> last_arg b = (match w with [] => None | _ => Some w end).
Proof.
  intros b w [H| [-> H]].
  - pose proof H as [Hne _]. apply last_arg_iff in H. destruct w; [congruence|exact H].
  - apply last_arg_none. exact H.
Qed.

Definition first_index (hs : list text) (loc : option nat) : nat :=
  match loc with Some i => i | None => length hs - 1 end.

Lemma insert_arg : forall E hs loc a r w (x : emacs) s (i : nat) (k : MK emacs unit) (Q : unit -> emacs * ed -> Prop),
  at_ hs loc a r s ->
  (forall e, nth_error hs i = Some e -> gives e w) ->
  (forall s', at_ hs loc (a ++ w) r s' -> ok k (x, s') Q) ->
  ok (hb <- liftr (hist_get (ed_history s) i) ;;
      match last_arg hb with
      | Some t => lift (insert_chars_after_cursor E t)
      | None => ret tt
      end ;;; k) (x, s) Q.
Proof.
  intros E hs loc a r w x s i k Q A He Hk. apply ok_bind, ok_liftr. intros b Hb.
  pose proof (at_fetch _ _ _ _ _ _ _ A Hb) as Hn. rewrite (gives_arg b w (He _ Hn)).
  destruct w as [|c w].
  - apply ok_bind, ok_ret. apply Hk. rewrite app_nil_r. exact A.
  - eapply ok_lift_seq; [apply (at_insert E hs loc a r (c :: w) s A)|]. cbv beta. intros _ s' A'. apply Hk. exact A'.
Qed.

Lemma not_empty : forall h hs, texts h = hs -> hs <> [] -> hist_is_empty h = false.
Proof.
  intros h hs Hh Hne. unfold hist_is_empty, nonempty. destruct (buffers h) eqn:Eb; [|reflexivity].
  exfalso. apply Hne. rewrite <- Hh. unfold texts. rewrite Eb. reflexivity.
Qed.

(** The first press. *)
Lemma dot_first : forall E hs loc a r s w, at_ hs loc a r s -> hs <> [] ->
  (forall e, nth_error hs (first_index hs loc) = Some e -> gives e w) ->
  ok (handle_key emacs_core E dot) (emacs_new, s)
     (fun d y => d = false /\ fst y = mkEmacs (Some (first_index hs loc)) /\ at_ hs loc (a ++ w) r (snd y)).
Proof.
  intros E hs loc a r s w A Hne He. pose proof A as [_ [Hl Hh]].
  apply (ok_dot E emacs_new s (fun y => fst y = mkEmacs (Some (first_index hs loc)) /\ at_ hs loc (a ++ w) r (snd y))).
  unfold handle_last_arg_fetch. apply ok_gete.
  rewrite (not_empty _ _ Hh Hne). apply ok_getk. cbn [last_arg_fetch_index emacs_new].
  apply ok_bind, ok_bind, ok_liftr. intros m Hm. apply ok_ret.
  assert (Hi : match ed_loc s with Some i => i | None => m end = first_index hs loc).
  { rewrite Hl. destruct loc; [reflexivity|]. unfold sub_chk in Hm. rewrite hist_len_texts, Hh in Hm.
    destruct (1 <=? length hs); [|discriminate]. injection Hm as <-. reflexivity. }
  rewrite Hi. apply ok_bind, ok_ret, ok_gete.
  eapply insert_arg; [exact A|exact He|]. intros s' A'. apply ok_modk. cbn [fst snd].
  split; [reflexivity|]. apply at_hint. exact A'.
Qed.

(** A further press. *)
Lemma dot_next : forall E hs loc t w s w' j, hs <> [] -> at_ hs loc (t ++ w) [] s -> ends_space t -> w <> [] -> no_space w ->
  (forall e, nth_error hs j = Some e -> gives e w') ->
  ok (handle_key emacs_core E dot) (mkEmacs (Some (S j)), s)
     (fun d y => d = false /\ fst y = mkEmacs (Some j) /\ at_ hs loc (t ++ w') [] (snd y)).
Proof.
  intros E hs loc t w s w' j Hne A Ht Hw Hns He. pose proof A as [[b [V Hb]] [Hl Hh]].
  apply (ok_dot E (mkEmacs (Some (S j))) s (fun y => fst y = mkEmacs (Some j) /\ at_ hs loc (t ++ w') [] (snd y))).
  unfold handle_last_arg_fetch. apply ok_gete.
  rewrite (not_empty _ _ Hh Hne).
  apply ok_getk. cbn [last_arg_fetch_index].
  apply ok_bind, ok_ret. 
  eapply ok_seq with (P := fun _ y => fst y = mkEmacs (Some (S j)) /\ at_ hs loc t [] (snd y)).
  - eapply ok_lift_seq; [apply (ok_get_cur _ _ _ _ V)|]. intros x s1 [-> Hx]. rewrite Hb, app_nil_r in Hx.
    assert (Hla : last_arg x = Some w).
    { apply last_arg_iff. rewrite Hx. split; [exact Hw|]. split; [exact Hns|]. exists t, 0. cbn [repeat].
      rewrite app_nil_r. auto. }
    rewrite Hla. apply ok_bind, ok_liftr. intros pos Hpos. unfold sub_chk, num_chars in Hpos. rewrite Hx, app_length in Hpos.
    destruct (length w <=? length t + length w); [|discriminate]. injection Hpos as <-.
    replace (length t + length w - length w) with (length t) by lia.
    apply ok_lift. eapply ok_mono; [apply (at_delete E hs loc t w s A)|]. cbv beta. intros _ s' A'. cbn [fst snd]. auto.
  - intros u [x' s'] [Hx A']. cbn [fst snd] in Hx, A'. subst x'. apply ok_gete.
    eapply insert_arg; [exact A'|exact He|]. intros s2 A2. apply ok_modk. cbn [fst snd].
    split; [reflexivity|]. apply at_hint. exact A2.
Qed.

(** Nothing older is left. *)
Lemma dot_oldest : forall E hs loc a r s, hs <> [] -> at_ hs loc a r s ->
  ok (handle_key emacs_core E dot) (mkEmacs (Some 0), s)
     (fun d y => d = false /\ fst y = mkEmacs (Some 0) /\ at_ hs loc a r (snd y)).
Proof.
  intros E hs loc a r s Hne A. pose proof A as [_ [_ Hh]].
  apply (ok_dot E (mkEmacs (Some 0)) s (fun y => fst y = mkEmacs (Some 0) /\ at_ hs loc a r (snd y))).
  unfold handle_last_arg_fetch. apply ok_gete. rewrite (not_empty _ _ Hh Hne). apply ok_getk.
  cbn [last_arg_fetch_index]. apply ok_bind, ok_ret, ok_ret. cbn [fst snd]. split; [reflexivity|]. apply at_hint. exact A.
Qed.

(** Pressing on: [ws] are the arguments of the entries [i - 1, i - 2, ... 0]. *)
Lemma dot_more : forall l hs loc t, hs <> [] -> ends_space t -> map snd l = repeat dot (length l) ->
  forall i w s, at_ hs loc (t ++ w) [] s -> w <> [] -> no_space w ->
  (forall j, i - length l <= j < i -> exists e w, nth_error hs j = Some e /\ is_last_word w e) ->
  ok (run_keys emacs_core l) (mkEmacs (Some i), s)
     (fun d y => d = false /\ fst y = mkEmacs (Some (i - length l)) /\
        exists w', at_ hs loc (t ++ w') [] (snd y) /\
          (i = 0 \/ l = [] -> w' = w) /\
          (0 < i -> l <> [] -> exists e, nth_error hs (i - length l) = Some e /\ is_last_word w' e)).
Proof.
  induction l as [|[E k] l IH]; intros hs loc t Hne Ht Hl i w s A Hw Hns Hi; cbn [run_keys].
  - apply ok_ret. cbn [fst snd length]. rewrite Nat.sub_0_r. split; [reflexivity|]. split; [reflexivity|].
    exists w. split; [exact A|]. split; [auto|]. intros _ H. congruence.
  - cbn [map snd length repeat] in Hl. injection Hl as -> Hl. apply ok_bind. destruct i as [|i].
    + eapply ok_mono; [apply (dot_oldest E hs loc _ _ s Hne A)|]. intros d [x' s'] [-> [Hx A']]. cbn [fst snd] in Hx, A'. subst x'.
      eapply ok_mono; [apply (IH hs loc t Hne Ht Hl 0 w s' A' Hw Hns)|].
      { intros j Hj. lia. }
      intros d y [H1 [H2 [w' [H3 [H4 H5]]]]]. cbn [length Nat.sub] in *. split; [exact H1|]. split; [exact H2|].
      exists w'. split; [exact H3|]. split; [auto|]. lia.
    + destruct (Hi i) as [e [w1 [E1 E2]]]; [cbn [length]; lia|].
      eapply ok_mono; [apply (dot_next E hs loc t w s w1 i Hne A Ht Hw Hns)|].
      { intros e' He'. rewrite E1 in He'. injection He' as <-. left. exact E2. }
      intros d [x' s'] [-> [Hx A']]. cbn [fst snd] in Hx, A'. subst x'. pose proof E2 as [Hw1 [Hns1 _]].
      eapply ok_mono; [apply (IH hs loc t Hne Ht Hl i w1 s' A' Hw1 Hns1)|].
      { intros j Hj. apply Hi. cbn [length]. lia. }
      intros d y [H1 [H2 [w' [H3 [H4 H5]]]]]. cbn [length Nat.sub]. split; [exact H1|]. split; [exact H2|].
      exists w'. split; [exact H3|]. split; [intros [H|H]; discriminate|]. intros _ _.
      destruct (Nat.eq_dec i 0) as [->|Hi0].
      * rewrite H4 by auto. exists e. auto.
      * destruct l as [|y' l']; [rewrite H4 by auto; exists e; cbn [length]; rewrite Nat.sub_0_r; auto|].
        apply H5; [lia|discriminate].
Qed.

(** * Statements *)

Lemma backwards_nth : forall hs loc n, (forall i, loc = Some i -> i < length hs) -> hs <> [] ->
  length (backwards hs loc) = S (first_index hs loc) /\
  (n <= first_index hs loc -> nth_error (backwards hs loc) n = nth_error hs (first_index hs loc - n)).
Proof.
  assert (R : forall (l : list text) n, n < length l -> nth_error (rev l) n = nth_error l (length l - S n)).
  { intros l n Hn. rewrite (nth_error_nth' (rev l) [] ltac:(rewrite rev_length; exact Hn)).
    rewrite rev_nth by exact Hn. symmetry. apply nth_error_nth'. lia. }
  intros hs loc n Hloc Hne. destruct loc as [i|]; cbn [backwards first_index].
  - specialize (Hloc i eq_refl). rewrite rev_length, firstn_length, Nat.min_l by lia. split; [reflexivity|].
    intro Hn. rewrite R by (rewrite firstn_length, Nat.min_l by lia; lia).
    rewrite firstn_length, Nat.min_l by lia. replace (S i - S n) with (i - n) by lia.
    rewrite <- (firstn_skipn (S i) hs) at 2. rewrite nth_error_app1; [reflexivity|].
    rewrite firstn_length. lia.
  - rewrite rev_length. destruct hs as [|x hs]; [congruence|]. cbn [length]. split; [lia|]. intro Hn.
    rewrite R by (cbn [length]; lia). f_equal. cbn [length]. lia.
Qed.

Lemma at_of : forall s a r, line_is s (a ++ r) (length a) -> is_search s = false -> ed_noeol s = false ->
  at_ (texts (ed_history s)) (ed_loc s) a r s.
Proof.
  intros s a r [b [H1 [H2 H3]]] Hs He. split; [|auto]. exists (opened s b).
  split; [|rewrite data_opened; exact H2]. rewrite <- H3, <- He. apply view_of; assumption.
Qed.
Lemma at_line : forall hs loc a r s, at_ hs loc a r s -> line_is s (a ++ r) (length a).
Proof.
  intros hs loc a r s [[b [V Hb]] _]. destruct (view_line _ _ _ _ V) as [b0 [B1 B2]].
  exists b0. split; [exact B1|]. split; [congruence|]. exact (proj1 (proj2 (proj2 V))).
Qed.
Lemma dot_once : forall E s a r e w d x s',
  line_is s (a ++ r) (length a) -> is_search s = false -> ed_noeol s = false ->
  (forall i, ed_loc s = Some i -> i < length (texts (ed_history s))) ->
  hd_error (backwards (texts (ed_history s)) (ed_loc s)) = Some e -> is_last_word w e ->
  handle_key emacs_core E (KAlt (ch ".")) (emacs_new, s) = ORet d (x, s') ->
  d = false /\ line_is s' (a ++ w ++ r) (length (a ++ w)).
Proof.
  intros E s a r e w d x s' Hline Hs Hn Hloc He Hw H.
  set (hs := texts (ed_history s)) in *.
  assert (Hne : hs <> []).
  { intro Hx. rewrite Hx in He. destruct (ed_loc s); discriminate. }
  pose proof (at_of s a r Hline Hs Hn) as A. fold hs in A.
  destruct (backwards_nth hs (ed_loc s) 0 Hloc Hne) as [B1 B2]. specialize (B2 ltac:(lia)).
  rewrite Nat.sub_0_r in B2.
  pose proof (dot_first E hs (ed_loc s) a r s w A Hne) as D.
  assert (He' : forall e0, nth_error hs (first_index hs (ed_loc s)) = Some e0 -> gives e0 w).
  { intros e0 H0. rewrite <- B2 in H0. destruct (backwards hs (ed_loc s)); [discriminate|]. cbn in H0, He.
    left. congruence. }
  destruct (ok_of _ _ _ _ _ (D He') H) as [Hd [_ A']]. split; [exact Hd|]. cbn [snd] in A'.
  apply at_line in A'. rewrite <- app_assoc in A'. exact A'.
Qed.

Lemma dot_walk : forall s t l n e w d x s',
  line_is s t (length t) -> ends_space t -> is_search s = false -> ed_noeol s = false ->
  (forall i, ed_loc s = Some i -> i < length (texts (ed_history s))) ->
  let back := backwards (texts (ed_history s)) (ed_loc s) in
  map snd l = repeat (KAlt (ch ".")) n -> 0 < n ->
  nth_error back (Nat.min n (length back) - 1) = Some e -> is_last_word w e ->
  (forall y, In y (firstn n back) -> exists v, is_last_word v y) ->
  run_keys emacs_core l (emacs_new, s) = ORet d (x, s') ->
  d = false /\ line_is s' (t ++ w) (length (t ++ w)).
Proof.
  intros s t l n e w d x s' Hline Ht Hs Hn Hloc back Hl Hpos He Hw Hall H.
  assert (Hne : texts (ed_history s) <> []).
  { intro Hx. unfold back in He. rewrite Hx in He. replace (backwards [] (ed_loc s)) with (@nil text) in He
      by (destruct (ed_loc s); reflexivity). destruct (Nat.min _ _ - 1); discriminate. }
  set (hs := texts (ed_history s)) in *. set (loc := ed_loc s) in *. set (f := first_index hs loc) in *.
  assert (B1 : length back = S f) by exact (proj1 (backwards_nth hs loc 0 Hloc Hne)).
  assert (B2 : forall k, k <= f -> nth_error back k = nth_error hs (f - k)).
  { intros k Hk. exact (proj2 (backwards_nth hs loc k Hloc Hne) Hk). }
  assert (Hex : forall k, k < n -> k <= f -> exists e w, nth_error hs (f - k) = Some e /\ is_last_word w e).
  { intros k Hk1 Hk2. rewrite <- (B2 k Hk2). destruct (nth_error back k) as [y|] eqn:Ey.
    - destruct (Hall y) as [v Hv]; [|exists y, v; auto].
      rewrite <- (firstn_skipn n back) in Ey. rewrite nth_error_app1 in Ey.
      + eapply nth_error_In. exact Ey.
      + rewrite firstn_length. lia.
    - apply nth_error_None in Ey. lia. }
  assert (Hll : length l = n) by (apply (f_equal (@length key)) in Hl; rewrite map_length, repeat_length in Hl; exact Hl).
  destruct l as [|[E k] l]; [cbn [length] in Hll; lia|]. destruct n as [|n]; [lia|].
  cbn [map snd repeat length] in Hl, Hll. injection Hl as -> Hl. injection Hll as Hll.
  assert (A : at_ hs loc t [] s).
  { apply at_of; [rewrite app_nil_r; exact Hline|exact Hs|exact Hn]. }
  destruct (Hex 0 ltac:(lia) ltac:(lia)) as [e0 [w0 [E0 W0]]]. rewrite Nat.sub_0_r in E0.
  cbn [run_keys] in H. apply bind_inv in H as [d1 [[x1 s1] [H1 H]]].
  pose proof (dot_first E hs loc t [] s w0 A Hne) as D.
  assert (He' : forall e1, nth_error hs (first_index hs loc) = Some e1 -> gives e1 w0).
  { intros e1 He1. fold f in He1. rewrite E0 in He1. injection He1 as <-. left. exact W0. }
  destruct (ok_of _ _ _ _ _ (D He') H1) as [-> [Hx1 A1]]. cbn [fst snd] in Hx1, A1. subst x1.
  pose proof W0 as [Hw0 [Hns0 _]].
  assert (Hl' : map snd l = repeat dot (length l)) by (rewrite Hll; exact Hl).
  pose proof (dot_more l hs loc t Hne Ht Hl' f w0 s1 A1 Hw0 Hns0) as M.
  assert (Hj : forall j, f - length l <= j < f -> exists e w, nth_error hs j = Some e /\ is_last_word w e).
  { intros j Hj. destruct (Hex (f - j) ltac:(lia) ltac:(lia)) as [e2 [w2 [K1 K2]]].
    replace (f - (f - j)) with j in K1 by lia. exists e2, w2. auto. }
  destruct (ok_of _ _ _ _ _ (M Hj) H) as [Hd [_ [w' [A' [M1 M2]]]]]. cbn [snd] in A'.
  split; [exact Hd|].
  assert (Ew : exists e2, nth_error back (Nat.min (S n) (length back) - 1) = Some e2 /\ is_last_word w' e2).
  { rewrite B1. destruct (Nat.eq_dec f 0) as [Hf0|Hf0].
    - rewrite (M1 (or_introl Hf0)). exists e0. split; [|exact W0]. rewrite B2 by lia.
      replace (f - (Nat.min (S n) (S f) - 1)) with f by lia. exact E0.
    - destruct l as [|y l'].
      + rewrite (M1 (or_intror eq_refl)). cbn [length] in Hll. subst n. exists e0. split; [|exact W0].
        rewrite B2 by lia. replace (f - (Nat.min 1 (S f) - 1)) with f by lia. exact E0.
      + destruct M2 as [e2 [K1 K2]]; [lia|discriminate|]. exists e2. split; [|exact K2].
        rewrite Hll in K1. rewrite B2 by lia. replace (f - (Nat.min (S n) (S f) - 1)) with (f - n) by lia. exact K1. }
  destruct Ew as [e2 [K1 K2]]. rewrite He in K1. injection K1 as <-.
  assert (w' = w).
  { apply (proj2 (last_arg_iff (buf_of e) w)) in Hw. apply (proj2 (last_arg_iff (buf_of e) w')) in K2. congruence. }
  subst w'. apply at_line in A'. rewrite app_nil_r in A'. exact A'.
Qed.
