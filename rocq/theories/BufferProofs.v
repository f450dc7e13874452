(** Proofs about the buffer model. *)
From Verif Require Import Base Utf8 BufferModel BufferSpec Lemmas.

(** * Raw operations *)

Lemma vec_insert_app : forall a c d, vec_insert (length a) c (a ++ d) = Val (a ++ c :: d).
Proof.
  intros a c d. unfold vec_insert. rewrite app_length.
  replace (length a <=? length a + length d) with true by (symmetry; apply Nat.leb_le; lia).
  rewrite firstn_app_len, skipn_app_len. reflexivity.
Qed.
Lemma insert_raw_from_app : forall t a m c s i, s = length a -> i = length m ->
  insert_raw_from s i t (a ++ m ++ c) = Val (a ++ m ++ t ++ c).
Proof.
  induction t as [|x t IH]; intros a m c s i Hs Hi; simpl; [reflexivity|].
  rewrite (app_assoc a m c).
  replace (s + i) with (length (a ++ m)) by (rewrite app_length; lia).
  rewrite vec_insert_app. simpl. rewrite <- app_assoc.
  change (m ++ x :: c) with (m ++ [x] ++ c). rewrite (app_assoc m [x] c).
  rewrite (IH a (m ++ [x]) c s (S i)); [|assumption|rewrite app_length; simpl; lia].
  rewrite <- app_assoc. reflexivity.
Qed.
Lemma insert_raw_app : forall a t c, insert_raw (length a) t (a ++ c) = Val (a ++ t ++ c).
Proof. intros. unfold insert_raw. apply (insert_raw_from_app t a [] c); reflexivity. Qed.

Lemma insert_raw_far : forall s t d, length d < s -> t <> [] -> insert_raw s t d = Pan PVecInsert.
Proof.
  intros s t d H Ht. destruct t as [|x t]; [congruence|].
  unfold insert_raw. simpl. unfold vec_insert.
  replace (s + 0 <=? length d) with false by (symmetry; apply Nat.leb_gt; lia). reflexivity.
Qed.

Lemma remove_raw_app : forall a m c,
  remove_raw (length a) (length a + length m) (a ++ m ++ c) = Val (m, a ++ c).
Proof.
  intros a m c. unfold remove_raw. rewrite !app_length.
  replace (length a <=? length a + length m) with true by (symmetry; apply Nat.leb_le; lia).
  replace (length a + length m <=? length a + (length m + length c)) with true
    by (symmetry; apply Nat.leb_le; lia). simpl.
  rewrite skipn_app_len. replace (length a + length m - length a) with (length m) by lia.
  rewrite firstn_app_len, firstn_app_len. rewrite (app_assoc a m c), skipn_app_eq; [reflexivity|].
  rewrite app_length. reflexivity.
Qed.
Lemma remove_raw_inv : forall s e d r rest, remove_raw s e d = Val (r, rest) ->
  exists a c, d = a ++ r ++ c /\ rest = a ++ c /\ s = length a /\ e = length a + length r.
Proof.
  intros s e d r rest H. unfold remove_raw in H.
  destruct (s <=? e) eqn:E1; [|discriminate]. destruct (e <=? length d) eqn:E2; [|discriminate].
  apply Nat.leb_le in E1. apply Nat.leb_le in E2.
  destruct (split3 d s e E1 E2) as (a & m & c & Hd & Ha & Hm). subst d s e.
  simpl in H. replace (length a + length m - length a) with (length m) in H by lia.
  rewrite skipn_app_len, !firstn_app_len in H.
  rewrite (app_assoc a m c), skipn_app_eq in H by (rewrite app_length; reflexivity).
  inversion H; subst. exists a, c. auto.
Qed.
Lemma remove_raw_pan : forall s e d, ~ (s <= e /\ e <= length d) -> remove_raw s e d = Pan PDrain.
Proof.
  intros s e d H. unfold remove_raw.
  destruct (s <=? e) eqn:E1; [|reflexivity]. destruct (e <=? length d) eqn:E2; [|reflexivity].
  apply Nat.leb_le in E1. apply Nat.leb_le in E2. tauto.
Qed.

(** * C01: splices *)

Lemma insert_app : forall b a c t, data b = a ++ c ->
  buf_insert b (length a) t
  = Val (mkBuf (a ++ t ++ c) (AInsert (length a) t :: actions b) []).
Proof. intros b a c t H. unfold buf_insert, act_do. rewrite H, insert_raw_app. reflexivity. Qed.
Lemma remove_app : forall b a m c, data b = a ++ m ++ c ->
  buf_remove b (length a) (length a + length m)
  = Val (length m, mkBuf (a ++ c) (ARemove (length a) m :: actions b) []).
Proof. intros b a m c H. unfold buf_remove. rewrite H, remove_raw_app. reflexivity. Qed.
Lemma truncate_app : forall b a c, data b = a ++ c ->
  buf_truncate b (length a)
  = Val (mkBuf a (ARemove (length a) c :: actions b) []).
Proof.
  intros b a c H. unfold buf_truncate.
  replace (length (data b)) with (length a + length c) by (rewrite H, app_length; reflexivity).
  rewrite (remove_app b a c []) by (rewrite app_nil_r; assumption).
  simpl. rewrite app_nil_r. reflexivity.
Qed.

Lemma run_edit_spliced : forall b e d, spliced e (data b) d ->
  exists b', run_edit b e = Val b' /\ data b' = d.
Proof.
  intros b e d H. remember (data b) as db eqn:Eb. destruct H as [a t c|a m c|a c]; simpl.
  - rewrite (insert_app b a c t) by auto. eexists; split; reflexivity.
  - rewrite (remove_app b a m c) by auto. eexists; split; reflexivity.
  - rewrite (truncate_app b a c) by auto. eexists; split; reflexivity.
Qed.
Lemma in_range_spliced : forall d e, edit_in_range (length d) e -> exists d', spliced e d d'.
Proof.
  intros d [s t|s e|n] H; simpl in H.
  - destruct (split2 d s H) as (a & c & -> & <-). eexists; constructor.
  - destruct H as [H1 H2]. destruct (split3 d s e H1 H2) as (a & m & c & -> & <- & <-).
    eexists; constructor.
  - destruct (split2 d n H) as (a & c & -> & <-). eexists; constructor.
Qed.
Lemma spliced_det : forall e d d1 d2, spliced e d d1 -> spliced e d d2 -> d1 = d2.
Proof.
  intros e d d1 d2 H1 H2.
  destruct (run_edit_spliced (buf_of d) e d1) as (b1 & E1 & D1); [exact H1|].
  destruct (run_edit_spliced (buf_of d) e d2) as (b2 & E2 & D2); [exact H2|].
  congruence.
Qed.
Lemma run_edit_pan : forall b e, ~ edit_in_range (length (data b)) e ->
  (forall s, e <> EInsert s []) -> exists p, run_edit b e = Pan p.
Proof.
  intros b [s t|s e|n] H He; simpl in H.
  - simpl. unfold buf_insert, act_do. rewrite insert_raw_far; [eexists; reflexivity|lia|].
    intro; subst; eapply He; reflexivity.
  - simpl. unfold buf_remove. rewrite remove_raw_pan by assumption. eexists; reflexivity.
  - simpl. unfold buf_truncate, buf_remove. rewrite remove_raw_pan by lia. eexists; reflexivity.
Qed.
Lemma insert_nil : forall b s, buf_insert b s [] = Val (mkBuf (data b) (AInsert s [] :: actions b) []).
Proof. reflexivity. Qed.

(** * Steps: what one recorded action does *)

Inductive astep : action -> text -> text -> Prop :=
| astep_insert : forall a t c, astep (AInsert (length a) t) (a ++ c) (a ++ t ++ c)
| astep_remove : forall a t c, astep (ARemove (length a) t) (a ++ t ++ c) (a ++ c)
| astep_start : forall d, astep AStart d d
| astep_end : forall d, astep AEnd d d.

Lemma astep_do : forall a d d', astep a d d' -> act_do a d = Val d'.
Proof.
  intros a d d' H; destruct H; simpl; try reflexivity.
  - apply insert_raw_app.
  - rewrite remove_raw_app. reflexivity.
Qed.
Lemma astep_undo : forall a d d', astep a d d' -> act_undo a d' = Val d.
Proof.
  intros a d d' H; destruct H; simpl; try reflexivity.
  - rewrite remove_raw_app. reflexivity.
  - apply insert_raw_app.
Qed.
Lemma astep_det : forall a d d1 d2, astep a d d1 -> astep a d d2 -> d1 = d2.
Proof. intros a d d1 d2 H1 H2. apply astep_do in H1. apply astep_do in H2. congruence. Qed.

(** [past d0 acts d]: undoing [acts] one by one leads from [d] back to [d0].
    [future d und d1]: redoing [und] one by one leads from [d] to [d1]. *)
Inductive past (d0 : text) : list action -> text -> Prop :=
| past_nil : past d0 [] d0
| past_cons : forall a acts d d', past d0 acts d -> astep a d d' -> past d0 (a :: acts) d'.
Inductive future (d1 : text) : list action -> text -> Prop :=
| future_nil : future d1 [] d1
| future_cons : forall a und d d', future d1 und d' -> astep a d d' -> future d1 (a :: und) d.

Lemma past_app : forall d0 d1 l1 l2 d, past d0 l2 d1 -> past d1 l1 d -> past d0 (l1 ++ l2) d.
Proof. intros d0 d1 l1 l2 d H2 H1; induction H1; simpl; [assumption|econstructor; eassumption]. Qed.

Definition inv (d0 d1 : text) (b : buffer) : Prop :=
  past d0 (actions b) (data b) /\ future d1 (undone b) (data b).

Lemma undo_loop_inv : forall acts und d nest cnt d0 d1,
  past d0 acts d -> future d1 und d ->
  exists b, undo_loop acts und d nest cnt = Val b /\ inv d0 d1 b /\
            length (actions b) + length (undone b) = length acts + length und /\
            length (actions b) <= length acts /\ (acts <> [] -> length (actions b) < length acts).
Proof.
  induction acts as [|a acts IH]; intros und d nest cnt d0 d1 HP HF; simpl.
  - exists (mkBuf d [] und). repeat split; simpl; auto. intro; congruence.
  - inversion HP as [|a' acts' dd d' HP' Hs]; subst.
    rewrite (astep_undo _ _ _ Hs). simpl.
    assert (HF' : future d1 (a :: und) dd) by (econstructor; eassumption).
    destruct (match a with AEnd => ((nest + 1)%Z, 0) | AStart => ((nest - 1)%Z, cnt)
              | _ => (nest, S cnt) end) as [n' c'].
    destruct (Z.eqb n' 0 && (0 <? c')).
    + exists (mkBuf dd acts (a :: und)). repeat split; simpl; auto; lia.
    + destruct (IH (a :: und) dd n' c' d0 d1 HP' HF') as (b & E & I & L1 & L2 & L3).
      exists b. simpl in *. repeat split; auto; try apply I; lia.
Qed.
Lemma redo_loop_inv : forall und acts d nest cnt d0 d1,
  past d0 acts d -> future d1 und d ->
  exists b, redo_loop und acts d nest cnt = Val b /\ inv d0 d1 b /\
            length (undone b) <= length und /\ (und <> [] -> length (undone b) < length und).
Proof.
  induction und as [|a und IH]; intros acts d nest cnt d0 d1 HP HF; simpl.
  - exists (mkBuf d acts []). repeat split; simpl; auto. intro; congruence.
  - inversion HF as [|a' und' dd d' HF' Hs]; subst.
    rewrite (astep_do _ _ _ Hs). simpl.
    assert (HP' : past d0 (a :: acts) d') by (econstructor; eassumption).
    destruct (match a with AStart => ((nest + 1)%Z, 0) | AEnd => ((nest - 1)%Z, cnt)
              | _ => (nest, S cnt) end) as [n' c'].
    destruct (Z.eqb n' 0 && (0 <? c')).
    + exists (mkBuf d' (a :: acts) und). repeat split; simpl; auto; lia.
    + destruct (IH (a :: acts) d' n' c' d0 d1 HP' HF') as (b & E & I & L1 & L2).
      exists b. simpl in *. repeat split; auto; try apply I; lia.
Qed.

Lemma undo_inv : forall b d0 d1, inv d0 d1 b ->
  exists b', buf_undo b = Val (nonempty (actions b), b') /\ inv d0 d1 b' /\
    length (actions b) <= length (actions b') + length (undone b') /\
    (actions b <> [] -> length (actions b') < length (actions b)).
Proof.
  intros b d0 d1 [HP HF]. unfold buf_undo.
  destruct (undo_loop_inv _ _ _ 0%Z 0 _ _ HP HF) as (b' & E & I & L1 & L2 & L3).
  rewrite E. simpl. exists b'. repeat split; try apply I; auto. lia.
Qed.
Lemma redo_inv : forall b d0 d1, inv d0 d1 b ->
  exists b', buf_redo b = Val (nonempty (undone b), b') /\ inv d0 d1 b' /\
    (undone b <> [] -> length (undone b') < length (undone b)).
Proof.
  intros b d0 d1 [HP HF]. unfold buf_redo.
  destruct (redo_loop_inv _ _ _ 0%Z 0 _ _ HP HF) as (b' & E & I & L1 & L2).
  rewrite E. simpl. exists b'. repeat split; try apply I; auto.
Qed.
Lemma undo_noacts : forall b, actions b = [] -> buf_undo b = Val (false, b).
Proof. intros [d a u] H; simpl in H; subst. reflexivity. Qed.
Lemma redo_nound : forall b, undone b = [] -> buf_redo b = Val (false, b).
Proof. intros [d a u] H; simpl in H; subst. reflexivity. Qed.

Lemma revert_loop_inv : forall n b d0 d1, inv d0 d1 b -> length (actions b) < n ->
  exists b', revert_loop n b = Some (Val b') /\ inv d0 d1 b' /\ actions b' = [].
Proof.
  induction n as [|n IH]; intros b d0 d1 HI HL; [lia|].
  simpl. destruct (undo_inv b d0 d1 HI) as (b' & E & I & _ & L). rewrite E.
  destruct (actions b) as [|a acts] eqn:Ea; simpl.
  - rewrite (undo_noacts b Ea) in E. inversion E; subst. exists b'. rewrite Ea. auto.
  - simpl in L. apply (IH b' d0 d1 I).
    assert (length (actions b') < S (length acts)) by (apply L; congruence). simpl in HL. lia.
Qed.
Lemma revert_inv : forall b d0 d1, inv d0 d1 b ->
  exists b', buf_revert b = Val (nonempty (actions b), b') /\ inv d0 d1 b' /\
             actions b' = [] /\ data b' = d0.
Proof.
  intros b d0 d1 HI. unfold buf_revert, buf_revert_opt.
  destruct (actions b) as [|a acts] eqn:Ea.
  - exists b. split; [reflexivity|]. split; [assumption|]. split; [assumption|].
    destruct HI as [HP _]. rewrite Ea in HP. inversion HP. reflexivity.
  - destruct (revert_loop_inv (S (length (a :: acts))) b d0 d1 HI) as (b' & E & I & A);
      [rewrite Ea; simpl; lia|].
    rewrite E. exists b'. split; [reflexivity|]. split; [assumption|]. split; [assumption|].
    destruct I as [HP _]. rewrite A in HP. inversion HP. reflexivity.
Qed.

(** An edit inside the text pushes one action which is a step. *)
Lemma edit_step : forall b e, edit_in_range (length (data b)) e ->
  exists a d', astep a (data b) d' /\ run_edit b e = Val (mkBuf d' (a :: actions b) []) /\
    a <> AStart /\ a <> AEnd.
Proof.
  intros b [s t|s e|n] H; simpl in H.
  - destruct (split2 (data b) s H) as (a & c & E & <-).
    simpl. rewrite (insert_app b a c t E). rewrite E.
    eexists _, _. split; [constructor|]. split; [reflexivity|split; discriminate].
  - destruct H as [H1 H2]. destruct (split3 (data b) s e H1 H2) as (a & m & c & E & <- & <-).
    simpl. rewrite (remove_app b a m c E). rewrite E.
    eexists _, _. split; [apply astep_remove|]. split; [reflexivity|split; discriminate].
  - destruct (split2 (data b) n H) as (a & c & E & <-).
    simpl. rewrite (truncate_app b a c E). rewrite E.
    exists (ARemove (length a) c), a. split; [|split; [reflexivity|split; discriminate]].
    pose proof (astep_remove a c []) as HH. rewrite !app_nil_r in HH. exact HH.
Qed.
Lemma inv_edit : forall d0 b a d' , past d0 (actions b) (data b) -> astep a (data b) d' ->
  inv d0 d' (mkBuf d' (a :: actions b) []).
Proof. intros. split; simpl; [econstructor; eassumption|constructor]. Qed.

Lemma copy_inv : forall b t d0, past d0 (actions b) (data b) ->
  exists a1 a2, copy_buffer b (buf_of t) = Val (mkBuf t (a1 :: a2 :: actions b) []) /\
    past d0 (a1 :: a2 :: actions b) t.
Proof.
  intros b t d0 HP. unfold copy_buffer.
  pose proof (remove_app b [] (data b) [] ltac:(rewrite app_nil_r; reflexivity)) as E.
  simpl in E. rewrite E. simpl.
  pose proof (insert_app (mkBuf [] (ARemove 0 (data b) :: actions b) []) [] [] t eq_refl) as E2.
  simpl in E2. rewrite app_nil_r in E2. rewrite E2.
  exists (AInsert 0 t), (ARemove 0 (data b)). split; [reflexivity|].
  econstructor; [econstructor; [exact HP|]|].
  - pose proof (astep_remove [] (data b) []) as HH. simpl in HH. rewrite app_nil_r in HH. exact HH.
  - pose proof (astep_insert [] t []) as HH. simpl in HH. rewrite app_nil_r in HH. exact HH.
Qed.

Lemma extend_step : forall b t, length (data b) <= length t ->
  exists a d', astep a (data b) d' /\
    insert_from_buffer b (buf_of t) = Val (mkBuf d' (a :: actions b) []) /\
    d' = data b ++ skipn (length (data b)) t.
Proof.
  intros b t H. unfold insert_from_buffer, slice. simpl.
  replace (length (data b) <=? length t) with true by (symmetry; apply Nat.leb_le; lia).
  rewrite Nat.leb_refl. simpl.
  assert (Hf : firstn (length t - length (data b)) (skipn (length (data b)) t)
               = skipn (length (data b)) t).
  { rewrite firstn_all2; [reflexivity|]. rewrite skipn_length. lia. }
  rewrite Hf.
  rewrite (insert_app b (data b) [] _) by (rewrite app_nil_r; reflexivity).
  rewrite app_nil_r. eexists _, _. split; [|split; [reflexivity|reflexivity]].
  pose proof (astep_insert (data b) (skipn (length (data b)) t) []) as HH.
  rewrite !app_nil_r in HH. exact HH.
Qed.

Lemma reach_inv : forall t b, reach t b -> exists d1, inv t d1 b.
Proof.
  intros t b H. induction H as [t|t b H IH|t b o b' H IH Ho Hr E].
  - exists t. split; constructor.
  - exists (data b). split; constructor.
  - destruct IH as [d1 I]. destruct o as [e| | | | | | |t'|t']; simpl in *.
    + destruct (edit_step b e Hr) as (a & d' & Hs & E' & _). rewrite E' in E. inversion E; subst.
      exists d'. apply inv_edit; [apply I|assumption].
    + inversion E; subst. exists d1. destruct I as [HP HF]. split; simpl; [|assumption].
      econstructor; [eassumption|constructor].
    + inversion E; subst. exists d1. destruct I as [HP HF]. split; simpl; [|assumption].
      econstructor; [eassumption|constructor].
    + destruct (undo_inv b t d1 I) as (b1 & E1 & I1 & _). rewrite E1 in E. inversion E; subst.
      exists d1. assumption.
    + destruct (redo_inv b t d1 I) as (b1 & E1 & I1 & _). rewrite E1 in E. inversion E; subst.
      exists d1. assumption.
    + destruct (revert_inv b t d1 I) as (b1 & E1 & I1 & _). rewrite E1 in E. inversion E; subst.
      exists d1. assumption.
    + congruence.
    + destruct I as [HP _]. destruct (copy_inv b t' t HP) as (a1 & a2 & E1 & P1).
      rewrite E1 in E. inversion E; subst. exists t'. split; [assumption|constructor].
    + destruct (extend_step b t' Hr) as (a & d' & Hs & E' & _). rewrite E' in E.
      inversion E; subst. exists d'.
      apply inv_edit; [apply I|assumption].
Qed.

(** * C04 *)
Lemma reach_revert : forall t b, reach t b ->
  (exists r b', buf_revert b = Val (r, b') /\ data b' = t) /\
  (exists r b', buf_undo b = Val (r, b')) /\ (exists r b', buf_redo b = Val (r, b')).
Proof.
  intros t b H. destruct (reach_inv t b H) as [d1 I]. split; [|split].
  - destruct (revert_inv b t d1 I) as (b' & E & _ & _ & D). eauto.
  - destruct (undo_inv b t d1 I) as (b' & E & _). eauto.
  - destruct (redo_inv b t d1 I) as (b' & E & _). eauto.
Qed.

(** * C03: redoing everything *)
Lemma redo_to_end_inv : forall n b d0 d1, inv d0 d1 b -> length (undone b) <= n ->
  exists r, redo_to_end b r /\ data r = d1.
Proof.
  induction n as [|n IH]; intros b d0 d1 I L.
  - destruct (undone b) eqn:Eu; [|simpl in L; lia].
    exists b. split; [apply redo_stop, redo_nound; assumption|].
    destruct I as [_ HF]. rewrite Eu in HF. inversion HF. reflexivity.
  - destruct (redo_inv b d0 d1 I) as (b' & E & I' & L').
    destruct (undone b) as [|a u] eqn:Eu.
    + exists b. split; [apply redo_stop, redo_nound; assumption|].
      destruct I as [_ HF]. rewrite Eu in HF. inversion HF. reflexivity.
    + simpl in *. destruct (IH b' d0 d1 I') as (r & R & D).
      { assert (length (undone b') < S (length u)) by (apply L'; congruence). lia. }
      exists r. split; [|assumption]. eapply redo_more; eassumption.
Qed.
Lemma redo_to_end_det : forall b r1 r2, redo_to_end b r1 -> redo_to_end b r2 -> r1 = r2.
Proof.
  intros b r1 r2 H. revert r2. induction H as [b b' E|b b1 b' E H IH]; intros r2 H2;
    inversion H2; subst; try congruence.
  rewrite E in H0. inversion H0; subst. apply IH. assumption.
Qed.
Lemma undo_n_inv : forall n b d0 d1, inv d0 d1 b ->
  exists b', undo_n n b = Val b' /\ inv d0 d1 b'.
Proof.
  induction n as [|n IH]; intros b d0 d1 I; simpl; [eauto|].
  destruct (undo_inv b d0 d1 I) as (b' & E & I' & _). rewrite E. simpl. eauto.
Qed.
Lemma redo_after_undos : forall t b n, reach t b ->
  exists b' r r', undo_n n b = Val b' /\ redo_to_end b r /\ redo_to_end b' r' /\
                  data r' = data r.
Proof.
  intros t b n H. destruct (reach_inv t b H) as [d1 I].
  destruct (undo_n_inv n b t d1 I) as (b' & E & I').
  destruct (redo_to_end_inv _ b t d1 I (le_n _)) as (r & R & D).
  destruct (redo_to_end_inv _ b' t d1 I' (le_n _)) as (r' & R' & D').
  exists b', r, r'. repeat split; auto. congruence.
Qed.

(** * C05 *)
Lemma edit_clears_undone : forall b e b', run_edit b e = Val b' -> undone b' = [].
Proof.
  intros b [s t|s e|n] b' H; simpl in H.
  - unfold buf_insert in H. apply rbind_val in H as (d & _ & H). inversion H. reflexivity.
  - apply rbind_val in H as ([k b1] & H1 & H). inversion H; subst. clear H.
    unfold buf_remove in H1. apply rbind_val in H1 as ([r d] & _ & H). inversion H. reflexivity.
  - unfold buf_truncate in H. apply rbind_val in H as ([k b1] & H1 & H). inversion H; subst.
    unfold buf_remove in H1. apply rbind_val in H1 as ([r d] & _ & H2). inversion H2. reflexivity.
Qed.
Lemma edit_then_redo : forall b e b', run_edit b e = Val b' -> buf_redo b' = Val (false, b').
Proof. intros. apply redo_nound. eapply edit_clears_undone; eassumption. Qed.
