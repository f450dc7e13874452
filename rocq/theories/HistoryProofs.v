(** Proofs about src/history.rs. *)
From Verif Require Import Base Utf8 BufferModel BufferSpec UtilModel UtilSpec HistoryModel HistorySpec
  Lemmas Utf8Proofs TextProofs UtilProofs.
From Coq Require Import Sorting.Sorted.

(** * Lists *)
Lemma newest_unique : forall {A} m (l r r' : list A), newest m l r -> newest m l r' -> r = r'.
Proof.
  intros A m l r r' (o & E & H) (o' & E' & H').
  assert (HL : length o = length o').
  { apply (f_equal (@length A)) in E. apply (f_equal (@length A)) in E'.
    rewrite app_length in *. lia. }
  rewrite E in E'. clear -E' HL. revert o' E' HL.
  induction o as [|x o IH]; intros [|y o'] E HL; simpl in *; try lia; [assumption|].
  inversion E. eapply IH; eauto.
Qed.
Lemma keep_last_newest : forall {A} n (l : list A), newest n l (keep_last n l).
Proof.
  intros A n l. unfold keep_last. destruct (n <=? length l) eqn:E.
  - apply Nat.leb_le in E. exists (firstn (length l - n) l). split.
    + symmetry. apply firstn_skipn.
    + rewrite skipn_length. lia.
  - apply Nat.leb_gt in E. exists []. split; [reflexivity|lia].
Qed.
Lemma skipn_newest : forall {A} n (l : list A), newest n l (skipn (length l - n) l).
Proof.
  intros A n l. exists (firstn (length l - n) l). split; [symmetry; apply firstn_skipn|].
  rewrite skipn_length. lia.
Qed.
Lemma newest_map : forall {A B} (f : A -> B) m l r, newest m l r -> newest m (map f l) (map f r).
Proof.
  intros A B f m l r (o & -> & H). exists (map f o). split; [apply map_app|].
  rewrite !map_length. assumption.
Qed.
Lemma newest_length : forall {A} m (l r : list A), newest m l r -> length r <= m /\ length r <= length l.
Proof. intros A m l r (o & _ & H). lia. Qed.
Lemma newest_trans : forall {A} m n (l r s : list A), newest m l r -> newest n r s -> newest (Nat.min m n) l s.
Proof.
  intros A m n l r s (o & -> & H) (o' & -> & H'). exists (o ++ o'). split; [apply app_assoc|].
  rewrite !app_length in *. lia.
Qed.
Lemma newest_all : forall {A} m (l : list A), length l <= m -> newest m l l.
Proof. intros A m l H. exists []. split; [reflexivity|lia]. Qed.
Lemma newest_snoc : forall {A} m (l r : list A) x, newest m l r ->
  newest m (l ++ [x]) (skipn (length (r ++ [x]) - m) (r ++ [x])).
Proof.
  intros A m l r x (o & -> & H).
  destruct (skipn_newest m (r ++ [x])) as (o' & E & HL).
  exists (o ++ o'). split.
  - rewrite <- !app_assoc, <- E. reflexivity.
  - rewrite HL. rewrite !app_length in *. simpl. lia.
Qed.
Lemma newest_last : forall {A} m (l r : list A), 0 < m -> newest m l r -> last_opt r = last_opt l.
Proof.
  intros A m l r Hm (o & -> & H). destruct (last_opt r) as [x|] eqn:E.
  - apply last_opt_Some in E as [r' ->]. rewrite app_assoc, last_opt_app. reflexivity.
  - apply last_opt_None in E. subst. rewrite app_nil_r in *. simpl in H.
    destruct o; [reflexivity|]. simpl in H. lia.
Qed.
Lemma last_opt_map : forall {A B} (f : A -> B) l, last_opt (map f l) = option_map f (last_opt l).
Proof.
  intros A B f l. destruct (last_opt l) as [x|] eqn:E.
  - apply last_opt_Some in E as [l' ->]. rewrite map_app. simpl. apply last_opt_app.
  - apply last_opt_None in E. subst. reflexivity.
Qed.

Lemma filter_length_le : forall {A} (f : A -> bool) l, length (filter f l) <= length l.
Proof. intros A f l. induction l as [|x l IH]; simpl; [lia|]. destruct (f x); simpl; lia. Qed.

(** Removing duplicates from the back *)
Lemma last_occ_det : forall {A} (l r r' : list A), last_occ l r -> last_occ l r' -> r = r'.
Proof.
  intros A l r r' H. revert r'. induction H; intros r' H'; inversion H'; subst; try tauto.
  - f_equal. auto.
  - auto.
Qed.
Lemma last_occ_snoc : forall l r x, last_occ (filter (fun y => negb (text_eqb x y)) l) r ->
  last_occ (l ++ [x]) (r ++ [x]).
Proof.
  induction l as [|y l IH]; intros r x H; simpl in *.
  - inversion H; subst. simpl. constructor; [simpl; tauto|constructor].
  - destruct (text_eqb x y) eqn:E; simpl in H.
    + apply text_eqb_eq in E. subst. apply lo_drop; [apply in_or_app; right; left; reflexivity|].
      apply IH. assumption.
    + apply text_eqb_neq in E.
      assert (HI : In y (filter (fun z => negb (text_eqb x z)) l) <-> In y (l ++ [x])).
      { rewrite filter_In, in_app_iff, negb_true_iff, text_eqb_neq. simpl. split; [tauto|].
        intros [Hy|[Hy|[]]]; [tauto|congruence]. }
      inversion H; subst; simpl.
      * apply lo_keep; [rewrite <- HI; assumption|]. apply IH. assumption.
      * apply lo_drop; [rewrite <- HI; assumption|]. apply IH. assumption.
Qed.
Lemma dedup_rev_acc : forall {A} (same : A -> A -> bool) n rl acc,
  dedup_rev same n rl acc = dedup_rev same n rl [] ++ acc.
Proof.
  intros A same n. induction n as [|n IH]; intros rl acc; [reflexivity|].
  destruct rl as [|x rl]; [reflexivity|]. cbn [dedup_rev].
  rewrite IH, (IH _ [x]), <- app_assoc. reflexivity.
Qed.
Lemma filter_rev : forall {A} (f : A -> bool) l, filter f (rev l) = rev (filter f l).
Proof.
  intros A f l. induction l as [|x l IH]; [reflexivity|]. simpl.
  rewrite filter_app, IH. simpl. destruct (f x); simpl; [reflexivity|]. apply app_nil_r.
Qed.
Lemma dedup_rev_last_occ : forall n rl, length rl <= n ->
  last_occ (rev rl) (dedup_rev text_eqb n rl []).
Proof.
  induction n as [|n IH]; intros rl Hn.
  - destruct rl; [constructor|simpl in Hn; lia].
  - destruct rl as [|x rl]; [constructor|]. cbn [dedup_rev rev]. rewrite dedup_rev_acc.
    apply last_occ_snoc. rewrite filter_rev. apply IH.
    pose proof (filter_length_le (fun y => negb (text_eqb x y)) rl). simpl in Hn. lia.
Qed.
Lemma dedup_last_occ : forall l, last_occ l (dedup_rev text_eqb (length l) (rev l) []).
Proof.
  intro l. rewrite <- (rev_involutive l) at 1. apply dedup_rev_last_occ. rewrite rev_length. apply le_n.
Qed.
Lemma filter_map_comm : forall {A B} (f : A -> B) (p : B -> bool) l,
  filter p (map f l) = map f (filter (fun x => p (f x)) l).
Proof.
  intros A B f p l. induction l as [|x l IH]; [reflexivity|]. simpl.
  destruct (p (f x)); simpl; rewrite IH; reflexivity.
Qed.
Lemma dedup_rev_map : forall {A B} (f : A -> B) (same : A -> A -> bool) (same' : B -> B -> bool) n rl acc,
  (forall x y, In x rl -> In y rl -> same x y = same' (f x) (f y)) ->
  map f (dedup_rev same n rl acc) = dedup_rev same' n (map f rl) (map f acc).
Proof.
  intros A B f same same' n. induction n as [|n IH]; intros rl acc H; [reflexivity|].
  destruct rl as [|x rl]; [reflexivity|]. cbn [dedup_rev map]. rewrite IH.
  - f_equal. rewrite filter_map_comm. f_equal. apply filter_ext_in. intros y Hy.
    rewrite H; [reflexivity|left; reflexivity|right; assumption].
  - intros y z Hy Hz. apply filter_In in Hy as [Hy _]. apply filter_In in Hz as [Hz _].
    apply H; right; assumption.
Qed.
Lemma last_occ_In : forall {A} (l r : list A), last_occ l r -> forall x, In x r <-> In x l.
Proof.
  intros A l r H. induction H as [|x l r Hx H IH|x l r Hx H IH]; intro y; simpl.
  - tauto.
  - rewrite IH. tauto.
  - rewrite IH. split; [tauto|]. intros [->|Hy]; assumption.
Qed.
Lemma last_occ_length : forall {A} (l r : list A), last_occ l r -> length r <= length l.
Proof. intros A l r H. induction H; simpl; lia. Qed.
Lemma last_occ_full : forall {A} (l r : list A), last_occ l r -> length r = length l -> r = l.
Proof.
  intros A l r H. induction H as [|x l r Hx H IH|x l r Hx H IH]; simpl; intro E; [reflexivity| |].
  - f_equal. apply IH. lia.
  - apply last_occ_length in H. lia.
Qed.

(** Joining the lines of an entry drops its newlines. *)
Lemma concat_split_on : forall sep t, concat (split_on sep t) = filter (fun c => negb (N.eqb c sep)) t.
Proof.
  intros sep t. induction t as [|c t IH]; [reflexivity|]. simpl.
  destruct (N.eqb c sep); simpl; [assumption|].
  pose proof (split_on_nonempty sep t). destruct (split_on sep t); [congruence|].
  simpl in *. rewrite IH. reflexivity.
Qed.
Lemma filter_all : forall {A} (f : A -> bool) l, (forall x, In x l -> f x = true) -> filter f l = l.
Proof.
  intros A f l. induction l as [|x l IH]; intro H; [reflexivity|]. simpl.
  rewrite (H x (or_introl eq_refl)), IH; [reflexivity|]. intros; apply H; right; assumption.
Qed.
Lemma joined_eq : forall b, joined b = filter (fun c => negb (N.eqb c c_nl)) (data b).
Proof. intro b. unfold joined, buf_lines. apply concat_split_on. Qed.
Lemma joined_nonl : forall b, ~ In c_nl (data b) -> joined b = data b.
Proof.
  intros b H. rewrite joined_eq. apply filter_all. intros x Hx.
  apply negb_true_iff, N.eqb_neq. intro; subst; tauto.
Qed.
Lemma dedup_buffers_texts : forall l, (forall b, In b l -> ~ In c_nl (data b)) ->
  last_occ (map data l) (map data (dedup_buffers l)).
Proof.
  intros l H. unfold dedup_buffers.
  rewrite (dedup_rev_map data _ text_eqb).
  - simpl. rewrite map_rev. rewrite <- (map_length data l). apply dedup_last_occ.
  - intros x y Hx Hy. apply in_rev in Hx. apply in_rev in Hy. rewrite joined_nonl by (apply H; assumption).
    destruct (text_eqb (data x) (data y)) eqn:E.
    + apply text_eqb_eq in E. apply text_eqb_eq. congruence.
    + apply text_eqb_neq in E. apply text_eqb_neq. congruence.
Qed.

(** * C08: pushing without a file *)
Lemma back_is_true : forall l t, back_is l t = true <-> last_opt (map data l) = Some t.
Proof.
  intros l t. unfold back_is. rewrite last_opt_map. destruct (last_opt l) as [b|]; simpl.
  - rewrite text_eqb_eq. split; congruence.
  - split; discriminate.
Qed.
Definition no_file_writes (h : history) : Prop := h_file h = None \/ h_inc h = false.
Lemma push_nofile : forall w h b, no_file_writes h ->
  hist_push w h b = if negb (h_appdup h) && back_is (buffers h) (data b) then (h, w)
    else (set_buffers h (skipn (length (buffers h ++ [b]) - h_maxbuf h) (buffers h ++ [b])), w).
Proof.
  intros w h b H. unfold hist_push. destruct (negb (h_appdup h) && back_is (buffers h) (data b)); [reflexivity|].
  cbv zeta. simpl h_file. simpl h_inc. destruct H as [H|H]; rewrite H; [reflexivity|].
  destruct (h_file h); reflexivity.
Qed.
Lemma push_step : forall w h b h' w', no_file_writes h -> hist_push w h b = (h', w') ->
  w' = w /\
  ((h_appdup h = false /\ last_opt (texts h) = Some (data b) /\ h' = h) \/
   ((h_appdup h = true \/ last_opt (texts h) <> Some (data b)) /\
    newest (h_maxbuf h) (buffers h ++ [b]) (buffers h'))).
Proof.
  intros w h b h' w' HN H. rewrite push_nofile in H by assumption.
  destruct (negb (h_appdup h) && back_is (buffers h) (data b)) eqn:E.
  - inversion H; subst. split; [reflexivity|]. left. apply andb_true_iff in E as [E1 E2].
    apply negb_true_iff in E1. apply back_is_true in E2. auto.
  - inversion H; subst. split; [reflexivity|]. right. split.
    + apply andb_false_iff in E as [E|E]; [left; apply negb_false_iff; assumption|right].
      unfold texts. rewrite <- back_is_true. congruence.
    + simpl. apply skipn_newest.
Qed.
Lemma collapse_cons_same : forall x l, collapse (Some x) (x :: l) = collapse (Some x) l.
Proof. intros x l. simpl. destruct (list_eq_dec N.eq_dec x x); [reflexivity|congruence]. Qed.
Lemma collapse_cons_other : forall p x l, p <> Some x -> collapse p (x :: l) = x :: collapse (Some x) l.
Proof.
  intros [y|] x l H; simpl; [|reflexivity]. destruct (list_eq_dec N.eq_dec x y); [subst; congruence|reflexivity].
Qed.
Lemma pushes_newest : forall l w h K, no_file_writes h -> 0 < h_maxbuf h -> newest (h_maxbuf h) K (texts h) ->
  newest (h_maxbuf h) (K ++ (if h_appdup h then map data l else collapse (last_opt K) (map data l)))
    (texts (fst (pushes w h l))).
Proof.
  induction l as [|b l IH]; intros w h K HN Hm HK.
  - simpl. destruct (h_appdup h); rewrite app_nil_r; assumption.
  - cbn [pushes]. rewrite push_nofile by assumption.
    pose proof (newest_last _ _ _ Hm HK) as HLast.
    destruct (negb (h_appdup h) && back_is (buffers h) (data b)) eqn:E.
    + apply andb_true_iff in E as [E1 E2]. apply negb_true_iff in E1. apply back_is_true in E2.
      specialize (IH w h K HN Hm HK). rewrite E1 in *. cbn [map].
      fold (texts h) in E2. rewrite <- HLast, E2 in *. rewrite collapse_cons_same. assumption.
    + set (h1 := set_buffers h (skipn (length (buffers h ++ [b]) - h_maxbuf h) (buffers h ++ [b]))).
      specialize (IH w h1 (K ++ [data b])). change (h_maxbuf h1) with (h_maxbuf h) in IH.
      change (h_appdup h1) with (h_appdup h) in IH.
      assert (HN1 : no_file_writes h1) by exact HN. specialize (IH HN1 Hm).
      assert (HK1 : newest (h_maxbuf h) (K ++ [data b]) (texts h1)).
      { pose proof (newest_snoc _ _ _ (data b) HK) as X. unfold texts in *. subst h1. simpl.
        rewrite <- skipn_map, map_app. simpl. rewrite !app_length, map_length in *. exact X. }
      specialize (IH HK1). rewrite last_opt_app in IH. rewrite <- app_assoc in IH. cbn [map].
      apply andb_false_iff in E. destruct (h_appdup h) eqn:EA; [exact IH|].
      destruct E as [E|E]; [discriminate|].
      rewrite collapse_cons_other; [exact IH|]. rewrite <- HLast. unfold texts.
      rewrite <- back_is_true. congruence.
Qed.
Lemma pushes_zero : forall l w h, no_file_writes h -> h_maxbuf h = 0 -> buffers h = [] ->
  buffers (fst (pushes w h l)) = [].
Proof.
  induction l as [|b l IH]; intros w h HN Hm HB; [exact HB|].
  cbn [pushes]. rewrite push_nofile by assumption.
  destruct (negb (h_appdup h) && back_is (buffers h) (data b)); [apply IH; assumption|].
  apply IH; try assumption. simpl. rewrite HB, Hm. reflexivity.
Qed.
Lemma pushes_empty : forall w h l, no_file_writes h -> buffers h = [] ->
  newest (h_maxbuf h) (if h_appdup h then map data l else collapse None (map data l))
    (texts (fst (pushes w h l))).
Proof.
  intros w h l HN HB. destruct (Nat.eq_dec (h_maxbuf h) 0) as [Hm|Hm].
  - unfold texts. rewrite pushes_zero by assumption. rewrite Hm. eexists. split; [symmetry; apply app_nil_r|reflexivity].
  - assert (HK : newest (h_maxbuf h) [] (texts h)).
    { unfold texts. rewrite HB. apply newest_all. simpl. lia. }
    exact (pushes_newest l w h [] HN ltac:(lia) HK).
Qed.

(** * C15: lookups *)
Lemma filter_seq_sorted : forall f a n, StronglySorted lt (filter f (seq a n)).
Proof.
  intros f a n. revert a. induction n as [|n IH]; intro a; [constructor|]. simpl.
  assert (H : Forall (lt a) (filter f (seq (S a) n))).
  { apply Forall_forall. intros x Hx. apply filter_In in Hx as [Hx _]. apply in_seq in Hx. lia. }
  destruct (f a); [constructor; auto|apply IH].
Qed.
Lemma filter_index : forall (h : history) (f : buffer -> bool) i,
  In i (filter (fun i => match nth_error (buffers h) i with Some t => f t | None => false end)
               (seq 0 (hist_len h))) <->
  exists b, nth_error (buffers h) i = Some b /\ f b = true.
Proof.
  intros h f i. rewrite filter_In, in_seq. unfold hist_len. split.
  - intros [_ H]. destruct (nth_error (buffers h) i) as [b|]; [eauto|discriminate].
  - intros (b & E & H). rewrite E. split; [|assumption].
    assert (i < length (buffers h)) by (apply nth_error_Some; congruence). lia.
Qed.
Lemma nth_texts : forall h i t, nth_error (texts h) i = Some t <->
  exists b, nth_error (buffers h) i = Some b /\ data b = t.
Proof.
  intros h i t. unfold texts. rewrite nth_error_map.
  destruct (nth_error (buffers h) i) as [b|]; simpl; split.
  - intro H. inversion H. eauto.
  - intros (x & E & H). inversion E; subst. reflexivity.
  - discriminate.
  - intros (x & E & H). discriminate.
Qed.
Lemma search_index_spec : forall h t,
  StronglySorted lt (search_index h (buf_of t)) /\
  (forall i, In i (search_index h (buf_of t)) <->
     t <> [] /\ exists s, nth_error (texts h) i = Some s /\ occurs t s).
Proof.
  intros h t. split; [apply filter_seq_sorted|]. intro i. unfold search_index. rewrite filter_index. split.
  - intros (b & E & H). apply contains_iff in H as [H1 H2]. split; [assumption|].
    exists (data b). split; [apply nth_texts; eauto|assumption].
  - intros (H1 & s & H2 & H3). apply nth_texts in H2 as (b & E & <-). exists b. split; [assumption|].
    apply contains_iff. split; assumption.
Qed.
Lemma extends_neq : forall t s, extends t s -> s <> t.
Proof.
  intros t s (x & r & ->) H. apply (f_equal (@length N)) in H. rewrite app_length in H. simpl in H. lia.
Qed.
Lemma history_subset_spec : forall h t, exists A B,
  get_history_subset h (buf_of t) = A ++ B /\ StronglySorted lt A /\ StronglySorted lt B /\
  (forall i, In i A <-> t <> [] /\ exists s, nth_error (texts h) i = Some s /\ occurs t s /\ s <> t /\ ~ extends t s) /\
  (forall i, In i B <-> t <> [] /\ exists s, nth_error (texts h) i = Some s /\ extends t s).
Proof.
  intros h t. eexists _, _. split; [reflexivity|].
  split; [apply filter_seq_sorted|]. split; [apply filter_seq_sorted|]. split.
  - intro i. rewrite filter_index. split.
    + intros (b & E & H). apply andb_true_iff in H as [H H3]. apply andb_true_iff in H as [H1 H2].
      apply contains_iff in H1 as [H1 H1']. apply negb_true_iff in H2. apply negb_true_iff in H3.
      split; [assumption|]. exists (data b). split; [apply nth_texts; eauto|]. split; [assumption|]. split.
      * intro C. assert (buf_eqb b (buf_of t) = true) by (apply buf_eqb_iff; assumption). congruence.
      * intro C. assert (starts_with b (buf_of t) = true) by (apply starts_with_iff; split; assumption). congruence.
    + intros (H1 & s & H2 & H3 & H4 & H5). apply nth_texts in H2 as (b & E & <-). exists b. split; [assumption|].
      apply andb_true_iff. split; [apply andb_true_iff; split|].
      * apply contains_iff. split; assumption.
      * apply negb_true_iff. destruct (starts_with b (buf_of t)) eqn:X; [|reflexivity].
        apply starts_with_iff in X as [_ X]. contradiction.
      * apply negb_true_iff. destruct (buf_eqb b (buf_of t)) eqn:X; [|reflexivity].
        apply buf_eqb_iff in X. contradiction.
  - intro i. rewrite filter_index. split.
    + intros (b & E & H). apply starts_with_iff in H as [H1 H2]. split; [assumption|].
      exists (data b). split; [apply nth_texts; eauto|assumption].
    + intros (H1 & s & H2 & H3). apply nth_texts in H2 as (b & E & <-). exists b. split; [assumption|].
      apply starts_with_iff. split; assumption.
Qed.
Lemma find_rev_seq : forall f n,
  match find f (rev (seq 0 n)) with
  | Some i => i < n /\ f i = true /\ (forall j, i < j < n -> f j = false)
  | None => forall j, j < n -> f j = false
  end.
Proof.
  intros f n. induction n as [|n IH]; [simpl; lia|].
  rewrite seq_S, rev_app_distr. simpl. destruct (f n) eqn:E.
  - repeat split; [lia|assumption|intros; lia].
  - destruct (find f (rev (seq 0 n))) as [i|].
    + destruct IH as (H1 & H2 & H3). repeat split; [lia|assumption|].
      intros j Hj. destruct (Nat.eq_dec j n); [subst; assumption|apply H3; lia].
    + intros j Hj. destruct (Nat.eq_dec j n); [subst; assumption|apply IH; lia].
Qed.
Lemma newest_match_spec : forall h pos t,
  let n := match pos with Some p => p | None => length (texts h) end in
  match get_newest_match h pos (buf_of t) with
  | Some i => i < n /\ t <> [] /\ (exists s, nth_error (texts h) i = Some s /\ extends t s) /\
              (forall j s, i < j < n -> nth_error (texts h) j = Some s -> ~ extends t s)
  | None => forall j s, j < n -> nth_error (texts h) j = Some s -> t = [] \/ ~ extends t s
  end.
Proof.
  intros h pos t n. unfold get_newest_match.
  assert (En : match pos with Some p => p | None => length (buffers h) end = n).
  { subst n. destruct pos; [reflexivity|]. unfold texts. rewrite map_length. reflexivity. }
  rewrite En. clearbody n. clear En pos. unfold get_match.
  set (f := fun i => match nth_error (buffers h) i with Some t0 => starts_with t0 (buf_of t) | None => false end).
  assert (F : forall i, f i = true <-> t <> [] /\ exists s, nth_error (texts h) i = Some s /\ extends t s).
  { intro i. unfold f. split.
    - intro H. destruct (nth_error (buffers h) i) as [b|] eqn:E; [|discriminate].
      apply starts_with_iff in H as [H1 H2]. split; [assumption|].
      exists (data b). split; [apply nth_texts; eauto|assumption].
    - intros (H1 & s & H2 & H3). apply nth_texts in H2 as (b & E & <-). rewrite E.
      apply starts_with_iff. split; assumption. }
  destruct (0 <? n) eqn:E0.
  - pose proof (find_rev_seq f n) as H. destruct (find f (rev (seq 0 n))) as [i|].
    + destruct H as (H1 & H2 & H3). apply F in H2 as [H2 H4]. split; [assumption|]. split; [assumption|].
      split; [assumption|]. intros j s Hj Hs C. specialize (H3 j Hj).
      assert (f j = true) by (apply F; split; [assumption|eauto]). congruence.
    + intros j s Hj Hs. destruct t as [|c t]; [left; reflexivity|right]. intro C. specialize (H j Hj).
      assert (f j = true) by (apply F; split; [discriminate|eauto]). congruence.
  - apply Nat.ltb_ge in E0. intros j s Hj. lia.
Qed.

(** * C16: remove_duplicates *)
Lemma remove_duplicates_spec : forall h s,
  selects (fun b => filter (fun c => negb (N.eqb c c_nl)) (data b) <> s) (buffers h)
    (buffers (remove_duplicates h s)).
Proof.
  intros h s. simpl. unfold retain_not. apply selects_filter. intro b.
  rewrite joined_eq, negb_true_iff, text_eqb_neq. tauto.
Qed.
Lemma selects_ext : forall {A} (P Q : A -> Prop) l r, (forall x, In x l -> (P x <-> Q x)) ->
  selects P l r -> selects Q l r.
Proof.
  intros A P Q l r H S. induction S as [|x l r HP S IH|x l r HP S IH]; constructor.
  - apply H; [left; reflexivity|assumption].
  - apply IH. intros; apply H; right; assumption.
  - intro C. apply HP. apply H; [left; reflexivity|assumption].
  - apply IH. intros; apply H; right; assumption.
Qed.
Lemma remove_duplicates_plain : forall h s, (forall t, In t (texts h) -> ~ In c_nl t) ->
  selects (fun b => data b <> s) (buffers h) (buffers (remove_duplicates h s)).
Proof.
  intros h s H. eapply selects_ext; [|apply remove_duplicates_spec]. intros b Hb. cbv beta.
  rewrite <- joined_eq, joined_nonl; [tauto|]. apply H. unfold texts. apply in_map. assumption.
Qed.
