(** Proofs about text predicates, splitting and words. *)
From Verif Require Import Base Utf8 BufferModel BufferSpec Lemmas Utf8Proofs UtilModel.

(** * starts_with, contains *)

Lemma match_count_le : forall a b, match_count a b <= length b.
Proof.
  induction a as [|x a IH]; destruct b as [|y b]; simpl; try lia.
  destruct (N.eqb x y); [specialize (IH b); lia|lia].
Qed.
Lemma match_count_full : forall a b, match_count a b = length b <-> exists r, a = b ++ r.
Proof.
  induction a as [|x a IH]; destruct b as [|y b]; simpl; split; intro H.
  - eauto.
  - reflexivity.
  - discriminate.
  - destruct H as [r H]; discriminate.
  - eauto.
  - reflexivity.
  - destruct (N.eqb x y) eqn:E; [|discriminate]. apply N.eqb_eq in E.
    inversion H as [H']. apply IH in H' as [r ->]. exists r. subst. reflexivity.
  - destruct H as [r H]. inversion H; subst. rewrite N.eqb_refl. f_equal. apply IH. eauto.
Qed.
Lemma starts_with_iff : forall b o,
  starts_with b o = true <-> data o <> [] /\ extends (data o) (data b).
Proof.
  intros b o. unfold starts_with. split.
  - intro H. destruct (nonempty (data o)) eqn:E1; [|discriminate].
    apply nonempty_true in E1. simpl in H.
    destruct (length (data b) =? length (data o)) eqn:E2; [discriminate|]. simpl in H.
    apply Nat.eqb_eq in H. apply match_count_full in H as [r H].
    split; [assumption|]. destruct r as [|x r].
    + rewrite app_nil_r in H. rewrite H, Nat.eqb_refl in E2. discriminate.
    + exists x, r. assumption.
  - intros [H1 (x & r & H2)]. apply nonempty_true in H1. rewrite H1. simpl.
    replace (length (data b) =? length (data o)) with false.
    + simpl. apply Nat.eqb_eq. apply match_count_full. eauto.
    + symmetry. apply Nat.eqb_neq. rewrite H2, app_length. simpl. lia.
Qed.

Lemma windows_in : forall n t w, 0 < n ->
  In w (windows n t) <-> length w = n /\ occurs w t.
Proof.
  intros n t w Hn. induction t as [|c t IH].
  - simpl. split; [tauto|]. intros [H (a & b & E)].
    destruct a, w; simpl in *; try discriminate; lia.
  - cbn [windows]. split.
    + intro H. destruct (n <=? length (c :: t)) eqn:E; [|destruct H].
      apply Nat.leb_le in E. destruct H as [H|H].
      * subst w. split; [rewrite firstn_length; lia|].
        exists [], (skipn n (c :: t)). simpl. symmetry. apply (firstn_skipn n (c :: t)).
      * apply IH in H as [H1 (a & b & H2)]. split; [assumption|].
        exists (c :: a), b. rewrite H2. reflexivity.
    + intros [H1 (a & b & H2)].
      assert (HL : n <= length (c :: t)).
      { rewrite H2, !app_length. lia. }
      apply Nat.leb_le in HL. rewrite HL. destruct a as [|x a].
      * left. simpl in H2. rewrite H2. subst n. apply firstn_app_len.
      * right. apply IH. split; [assumption|]. inversion H2. exists a, b. reflexivity.
Qed.
Lemma contains_iff : forall b p,
  contains b p = true <-> data p <> [] /\ occurs (data p) (data b).
Proof.
  intros b p. unfold contains. destruct (nonempty (data p)) eqn:E.
  - apply nonempty_true in E. rewrite existsb_exists. split.
    + intros (w & H1 & H2). apply text_eqb_eq in H2. subst.
      apply windows_in in H1; [|destruct (data p); simpl in *; [congruence|lia]].
      split; [assumption|apply H1].
    + intros [_ H]. exists (data p). split; [|apply text_eqb_refl].
      apply windows_in; [destruct (data p); simpl in *; [congruence|lia]|]. auto.
  - apply nonempty_false in E. split; [discriminate|]. intros [H _]. congruence.
Qed.

(** * Splitting *)

Lemma split_on_nonempty : forall sep t, split_on sep t <> [].
Proof.
  intros sep t. destruct t as [|c t]; simpl; [discriminate|].
  destruct (N.eqb c sep); [discriminate|]. destruct (split_on sep t); discriminate.
Qed.
Lemma glue_cons_nonempty : forall sep x l, l <> [] -> glue sep (x :: l) = x ++ sep :: glue sep l.
Proof. intros sep x [|y l] H; [congruence|reflexivity]. Qed.
Lemma glue_split : forall sep t, glue sep (split_on sep t) = t.
Proof.
  intros sep t. induction t as [|c t IH]; [reflexivity|]. simpl.
  pose proof (split_on_nonempty sep t) as Hn.
  destruct (N.eqb c sep) eqn:E.
  - apply N.eqb_eq in E. subst. rewrite glue_cons_nonempty by assumption. cbn [app]. rewrite IH. reflexivity.
  - destruct (split_on sep t) as [|p ps]; [congruence|]. destruct ps as [|q ps].
    + simpl in *. congruence.
    + rewrite glue_cons_nonempty in * by discriminate. cbn [app]. rewrite IH. reflexivity.
Qed.
Lemma split_on_nosep : forall sep t, Forall (fun p => ~ In sep p) (split_on sep t).
Proof.
  intros sep t. induction t as [|c t IH]; simpl; [repeat constructor; simpl; tauto|].
  destruct (N.eqb c sep) eqn:E.
  - constructor; [simpl; tauto|assumption].
  - apply N.eqb_neq in E. destruct (split_on sep t) as [|p ps].
    + repeat constructor. simpl. intros [H|H]; congruence.
    + inversion IH as [|? ? Hp Hps]; subst. constructor; [|assumption].
      simpl. intros [H|H]; [congruence|tauto].
Qed.
Lemma split_on_app : forall sep p t, ~ In sep p ->
  split_on sep (p ++ sep :: t) = p :: split_on sep t.
Proof.
  intros sep p t. induction p as [|c p IH]; intro H; simpl.
  - rewrite N.eqb_refl. reflexivity.
  - destruct (N.eqb c sep) eqn:E.
    + apply N.eqb_eq in E. subst. exfalso. apply H. left. reflexivity.
    + rewrite IH; [reflexivity|]. intro C. apply H. right. assumption.
Qed.
Lemma split_on_none : forall sep p, ~ In sep p -> split_on sep p = [p].
Proof.
  intros sep p. induction p as [|c p IH]; intro H; simpl; [reflexivity|].
  destruct (N.eqb c sep) eqn:E.
  - apply N.eqb_eq in E. subst. exfalso. apply H. left. reflexivity.
  - rewrite IH; [reflexivity|]. intro C. apply H. right. assumption.
Qed.
Lemma split_glue : forall sep l, l <> [] -> Forall (fun p => ~ In sep p) l ->
  split_on sep (glue sep l) = l.
Proof.
  intros sep l. induction l as [|p l IH]; intros Hn HF; [congruence|].
  inversion HF as [|? ? Hp HF']; subst. destruct l as [|q l].
  - simpl. apply split_on_none. assumption.
  - rewrite glue_cons_nonempty by discriminate. rewrite split_on_app by assumption.
    rewrite IH; [reflexivity|discriminate|assumption].
Qed.
Lemma split_on_iff : forall sep t l, split_on sep t = l <->
  l <> [] /\ glue sep l = t /\ Forall (fun p => ~ In sep p) l.
Proof.
  intros sep t l. split.
  - intro H. subst l. split; [apply split_on_nonempty|]. split; [apply glue_split|apply split_on_nosep].
  - intros (H1 & H2 & H3). subst t. apply split_glue; assumption.
Qed.

(** * The last word *)

Lemma last_nonempty : forall l : list text,
  match last_opt (filter nonempty l) with
  | None => Forall (fun p => p = []) l
  | Some w => exists l1 l2, l = l1 ++ w :: l2 /\ w <> [] /\ Forall (fun p => p = []) l2
  end.
Proof.
  intro l. induction l as [|p l IH] using rev_ind; [simpl; constructor|].
  rewrite filter_app. simpl. destruct (nonempty p) eqn:E.
  - rewrite last_opt_app. exists l, []. apply nonempty_true in E. split; [reflexivity|]. split; [assumption|constructor].
  - rewrite app_nil_r. apply nonempty_false in E. subst.
    revert IH. destruct (last_opt (filter nonempty l)) as [w|]; intro IH.
    + destruct IH as (l1 & l2 & -> & Hw & HF). exists l1, (l2 ++ [[]]).
      rewrite <- app_assoc. split; [reflexivity|]. split; [assumption|]. apply Forall_app. split; [assumption|repeat constructor].
    + apply Forall_app. split; [assumption|repeat constructor].
Qed.
Lemma glue_empties : forall sep l, Forall (fun p => p = []) l -> l <> [] ->
  glue sep l = repeat sep (length l - 1).
Proof.
  intros sep l. induction l as [|p l IH]; intros HF Hn; [congruence|].
  inversion HF as [|? ? Hp HF']; subst. destruct l as [|q l]; [reflexivity|].
  rewrite glue_cons_nonempty by discriminate. rewrite IH; [|assumption|discriminate].
  simpl. rewrite Nat.sub_0_r. reflexivity.
Qed.
Lemma glue_app : forall sep l1 l2, l1 <> [] -> l2 <> [] ->
  glue sep (l1 ++ l2) = glue sep l1 ++ sep :: glue sep l2.
Proof.
  intros sep l1 l2 H1 H2. induction l1 as [|p l IH]; [congruence|].
  destruct l as [|q l].
  - simpl app. rewrite glue_cons_nonempty by assumption. reflexivity.
  - change ((p :: q :: l) ++ l2) with (p :: ((q :: l) ++ l2)).
    rewrite (glue_cons_nonempty sep p ((q :: l) ++ l2)) by discriminate.
    rewrite IH by discriminate.
    rewrite (glue_cons_nonempty sep p (q :: l)) by discriminate.
    rewrite <- app_assoc. reflexivity.
Qed.

Lemma last_arg_is : forall b w, last_arg b = Some w -> is_last_word w (data b).
Proof.
  intros b w H. unfold last_arg in H.
  pose proof (last_nonempty (split_on c_sp (data b))) as HL. rewrite H in HL.
  destruct HL as (l1 & l2 & E & Hw & HF).
  pose proof (split_on_nosep c_sp (data b)) as HS. rewrite E in HS.
  apply Forall_app in HS as [_ HS]. inversion HS as [|? ? Hs _]; subst.
  pose proof (glue_split c_sp (data b)) as HG. rewrite E in HG.
  split; [assumption|]. split; [assumption|].
  assert (G2 : exists n, glue c_sp (w :: l2) = w ++ repeat c_sp n).
  { destruct l2 as [|q l2].
    - exists 0. simpl. rewrite app_nil_r. reflexivity.
    - rewrite glue_cons_nonempty by discriminate. rewrite glue_empties; [|assumption|discriminate].
      exists (S (length (q :: l2) - 1)). reflexivity. }
  destruct G2 as [n G2].
  destruct l1 as [|p l1].
  - exists [], n. change ([] ++ w :: l2) with (w :: l2) in HG. rewrite G2 in HG.
    split; [symmetry; assumption|left; reflexivity].
  - rewrite (glue_app c_sp (p :: l1) (w :: l2)) in HG by discriminate. rewrite G2 in HG.
    exists (glue c_sp (p :: l1) ++ [c_sp]), n. rewrite <- HG. rewrite <- app_assoc.
    split; [reflexivity|]. right. eauto.
Qed.
Lemma last_arg_none : forall b, last_arg b = None <-> (forall c, In c (data b) -> c = c_sp).
Proof.
  intro b. unfold last_arg. pose proof (last_nonempty (split_on c_sp (data b))) as HL. split.
  - intros H c Hc. rewrite H in HL. rewrite <- (glue_split c_sp (data b)) in Hc.
    rewrite glue_empties in Hc; [|assumption|apply split_on_nonempty].
    apply repeat_spec in Hc. exact Hc.
  - intro H. revert HL. destruct (last_opt _) as [w|]; [|reflexivity]. intro HL. exfalso.
    destruct HL as (l1 & l2 & E & Hw & HF).
    pose proof (split_on_nosep c_sp (data b)) as HS. rewrite E in HS.
    apply Forall_app in HS as [_ HS]. inversion HS as [|? ? Hs _]; subst.
    destruct w as [|c w]; [congruence|]. apply Hs.
    rewrite (H c); [left; reflexivity|].
    rewrite <- (glue_split c_sp (data b)), E.
    assert (HI : In c (glue c_sp ((c :: w) :: l2))).
    { destruct l2; simpl; left; reflexivity. }
    destruct l1 as [|p l1]; [exact HI|].
    rewrite glue_app by discriminate. apply in_or_app. right. right. exact HI.
Qed.

Fixpoint drop_sp (t : text) : text :=
  match t with [] => [] | c :: t' => if N.eqb c c_sp then drop_sp t' else t end.
Fixpoint take_nsp (t : text) : text :=
  match t with [] => [] | c :: t' => if N.eqb c c_sp then [] else c :: take_nsp t' end.
Lemma drop_sp_repeat : forall n t, drop_sp (repeat c_sp n ++ t) = drop_sp t.
Proof. induction n as [|n IH]; intro t; simpl; auto. Qed.
Lemma take_nsp_app : forall w a, no_space w -> starts_space a -> take_nsp (w ++ a) = w.
Proof.
  induction w as [|c w IH]; intros a Hw Ha; simpl.
  - destruct Ha as [->|[t ->]]; reflexivity.
  - destruct (N.eqb c c_sp) eqn:E.
    + apply N.eqb_eq in E. subst. exfalso. apply Hw. left. reflexivity.
    + rewrite IH; [reflexivity| |assumption]. intro C. apply Hw. right. assumption.
Qed.
Lemma last_word_unique : forall s w, is_last_word w s -> w = rev (take_nsp (drop_sp (rev s))).
Proof.
  intros s w (Hw & Hn & a & n & -> & Ha).
  rewrite !rev_app_distr. 
  assert (Er : rev (repeat c_sp n) = repeat c_sp n).
  { clear. induction n as [|n IH]; [reflexivity|]. simpl. rewrite IH. symmetry. apply repeat_cons. }
  rewrite Er, <- app_assoc, drop_sp_repeat.
  assert (Hd : drop_sp (rev w ++ rev a) = rev w ++ rev a).
  { destruct (rev w) as [|c r] eqn:E.
    - apply (f_equal (@rev N)) in E. rewrite rev_involutive in E. simpl in E. congruence.
    - simpl. destruct (N.eqb c c_sp) eqn:Ec; [|reflexivity].
      apply N.eqb_eq in Ec. subst. exfalso. apply Hn. apply in_rev. rewrite E. left. reflexivity. }
  rewrite Hd, take_nsp_app; [rewrite rev_involutive; reflexivity| |].
  - intro C. apply Hn. apply in_rev. assumption.
  - destruct Ha as [->|[a' ->]]; [left; reflexivity|right].
    rewrite rev_app_distr. simpl. eauto.
Qed.
Lemma last_arg_iff : forall b w, last_arg b = Some w <-> is_last_word w (data b).
Proof.
  intros b w. split; [apply last_arg_is|]. intro H.
  destruct (last_arg b) as [w'|] eqn:E.
  - apply last_arg_is in E. f_equal. rewrite (last_word_unique _ _ E), (last_word_unique _ _ H). reflexivity.
  - exfalso. rewrite last_arg_none in E. destruct H as (Hw & Hn & a & n & Hd & _).
    destruct w as [|c w]; [congruence|]. apply Hn. rewrite (E c); [left; reflexivity|].
    rewrite Hd. apply in_or_app. right. left. reflexivity.
Qed.

Lemma buf_eqb_iff : forall a b, buf_eqb a b = true <-> data a = data b.
Proof. intros. apply text_eqb_eq. Qed.
Lemma buf_string_of : forall t, buf_string (buf_of t) = t.
Proof. reflexivity. Qed.
Lemma num_bytes_length : forall b, num_bytes b = length (as_bytes b).
Proof. intro b. symmetry. apply enc_length. Qed.
Lemma bytes_decode : forall b, Forall (fun c => scalar c = true) (data b) ->
  dec (as_bytes b) = Some (data b).
Proof. intros. apply dec_enc. assumption. Qed.
Lemma lines_iff : forall b l, buf_lines b = l <->
  l <> [] /\ glue c_nl l = data b /\ Forall (fun p => ~ In c_nl p) l.
Proof. intros. apply split_on_iff. Qed.

Lemma print_rest_out : forall b a r, data b = a ++ r ->
  print_rest b (length a) = (enc r, length (enc r)).
Proof.
  intros b a r H. unfold print_rest. rewrite H, skipn_app_len, enc_length. reflexivity.
Qed.
