(** Proofs about undo groups. *)
From Verif Require Import Base Utf8 BufferModel BufferSpec Lemmas BufferProofs.

Definition is_edit (a : action) : Prop := a <> AStart /\ a <> AEnd.

(** Sequences of recorded actions (oldest first) made of edits and closed
    non-empty groups; [shape] is one such element. *)
Inductive shapes : list action -> Prop :=
| shs_nil : shapes []
| shs_edit : forall a l, is_edit a -> shapes l -> shapes (a :: l)
| shs_group : forall g l, shapes g -> g <> [] -> shapes l -> shapes (AStart :: g ++ AEnd :: l).
Inductive shape : list action -> Prop :=
| sh_edit : forall a, is_edit a -> shape [a]
| sh_group : forall g, shapes g -> g <> [] -> shape (AStart :: g ++ [AEnd]).

Lemma shapes_app : forall l1 l2, shapes l1 -> shapes l2 -> shapes (l1 ++ l2).
Proof.
  intros l1 l2 H1 H2. induction H1 as [|a l Ha H IH|g l Hg IHg Hne H IH]; simpl; [assumption|constructor; assumption|].
  rewrite <- app_assoc. simpl. apply shs_group; assumption.
Qed.
Lemma shape_shapes : forall l, shape l -> shapes l.
Proof. intros l [a Ha|g Hg Hne]; [apply shs_edit|apply shs_group]; try assumption; constructor. Qed.
Lemma shape_nonempty : forall l, shape l -> l <> [].
Proof. intros l H; destruct H; discriminate. Qed.

Lemma shapes_snoc : forall l, shapes l -> l <> [] ->
  exists l' it, l = l' ++ it /\ shapes l' /\ shape it.
Proof.
  intros l H. induction H as [|a l Ha H IH|g l Hg IHg Hne H IH]; intro Hl; [congruence| |].
  - destruct l as [|b l].
    + exists [], [a]. repeat split; try constructor; try apply Ha.
    + destruct IH as (l' & it & E & S1 & S2); [discriminate|].
      exists (a :: l'), it. rewrite E. repeat split; [constructor; assumption|assumption].
  - destruct l as [|b l].
    + exists [], (AStart :: g ++ [AEnd]). split; [reflexivity|split; [constructor|apply sh_group; assumption]].
    + destruct IH as (l' & it & E & S1 & S2); [discriminate|].
      exists (AStart :: g ++ AEnd :: l'), it. rewrite E. split; [|split; [apply shs_group; assumption|assumption]].
      simpl. rewrite <- app_assoc. reflexivity.
Qed.
Lemma shapes_cons : forall l, shapes l -> l <> [] ->
  exists it l', l = it ++ l' /\ shape it /\ shapes l'.
Proof.
  intros l H Hl. destruct H as [|a l Ha H|g l Hg Hne H]; [congruence| |].
  - exists [a], l. repeat split; try constructor; try apply Ha; assumption.
  - exists (AStart :: g ++ [AEnd]), l. split; [simpl; rewrite <- app_assoc; reflexivity|].
    split; [apply sh_group; assumption|assumption].
Qed.

Lemma past_app_inv : forall d0 l1 l2 d, past d0 (l1 ++ l2) d ->
  exists d1, past d0 l2 d1 /\ past d1 l1 d.
Proof.
  induction l1 as [|a l1 IH]; simpl; intros l2 d H.
  - exists d. split; [assumption|constructor].
  - inversion H as [|a' acts dd d' HP Hs]; subst. destruct (IH _ _ HP) as (d1 & H1 & H2).
    exists d1. split; [assumption|]. econstructor; eassumption.
Qed.
Lemma past_one : forall d0 a d, past d0 [a] d -> astep a d0 d.
Proof. intros d0 a d H. inversion H as [|? ? ? ? HP Hs]; subst. inversion HP; subst. assumption. Qed.

(** The undo loop passes over whole elements while inside a group, leaving a
    positive count. *)
Lemma undo_loop_edit : forall a acts und d nest cnt d', is_edit a -> astep a d' d ->
  undo_loop (a :: acts) und d nest cnt
  = if Z.eqb nest 0 then Val (mkBuf d' acts (a :: und)) else undo_loop acts (a :: und) d' nest (S cnt).
Proof.
  intros a acts und d nest cnt d' [H1 H2] Hs. simpl. rewrite (astep_undo _ _ _ Hs). simpl.
  destruct a; try congruence; destruct (Z.eqb nest 0); reflexivity.
Qed.
Lemma undo_loop_end : forall acts und d nest cnt, (0 <= nest)%Z ->
  undo_loop (AEnd :: acts) und d nest cnt = undo_loop acts (AEnd :: und) d (nest + 1) 0.
Proof.
  intros. simpl. destruct (Z.eqb (nest + 1) 0); reflexivity.
Qed.

Lemma undo_loop_shapes : forall fl, shapes fl -> forall acts und d0 d nest cnt,
  (1 <= nest)%Z -> past d0 (rev fl) d ->
  exists cnt', undo_loop (rev fl ++ acts) und d nest cnt = undo_loop acts (fl ++ und) d0 nest cnt'
               /\ (fl <> [] -> 0 < cnt').
Proof.
  intros fl H. induction H as [|a l Ha H IH|g l Hg IHg Hne H IH]; intros acts und d0 d nest cnt Hn HP.
  - simpl in *. inversion HP; subst. exists cnt. split; [reflexivity|congruence].
  - simpl in *. apply past_app_inv in HP as (d1 & H1 & H2). apply past_one in H1.
    rewrite <- app_assoc. simpl.
    destruct (IH (a :: acts) und d1 d nest cnt Hn H2) as (c1 & E1 & _).
    change ([a] ++ acts) with (a :: acts). rewrite E1.
    rewrite (undo_loop_edit a acts (l ++ und) d1 nest c1 d0 Ha H1).
    replace (Z.eqb nest 0) with false by (symmetry; apply Z.eqb_neq; lia).
    exists (S c1). split; [reflexivity|lia].
  - assert (Er : rev (AStart :: g ++ AEnd :: l) = rev l ++ [AEnd] ++ rev g ++ [AStart]).
    { simpl. rewrite rev_app_distr. simpl. rewrite <- !app_assoc. reflexivity. }
    rewrite Er in *. clear Er.
    apply past_app_inv in HP as (d1 & H1 & H2).
    apply past_app_inv in H1 as (d2 & H1 & H3). apply past_one in H3.
    apply past_app_inv in H1 as (d4 & H1 & H4). apply past_one in H1.
    inversion H3; subst. inversion H1; subst.
    rewrite <- !app_assoc. destruct (IH ([AEnd] ++ rev g ++ [AStart] ++ acts) und d1 d nest cnt Hn H2) as (c1 & E1 & _).
    rewrite E1. simpl ([AEnd] ++ _). rewrite undo_loop_end by lia.
    destruct (IHg ([AStart] ++ acts) (AEnd :: l ++ und) d4 d1 (nest + 1)%Z 0 ltac:(lia) H4) as (c2 & E2 & P2).
    simpl ([AStart] ++ acts) in E2. rewrite E2.
    exists c2. split; [|intro; apply P2; assumption].
    assert (EE : AStart :: (g ++ AEnd :: l) ++ und = AStart :: g ++ AEnd :: l ++ und).
    { rewrite <- app_assoc. reflexivity. }
    simpl. replace (nest + 1 - 1)%Z with nest by lia.
    replace (Z.eqb nest 0) with false by (symmetry; apply Z.eqb_neq; lia). simpl.
    rewrite <- app_assoc. reflexivity.
Qed.

Lemma undo_shape : forall it, shape it -> forall acts und d0 d, past d0 (rev it) d ->
  buf_undo (mkBuf d (rev it ++ acts) und) = Val (true, mkBuf d0 acts (it ++ und)).
Proof.
  intros it H acts und d0 d HP. unfold buf_undo. cbn [actions undone data].
  destruct H as [a Ha|g Hg Hne].
  - simpl in HP. apply past_one in HP.
    change (rev [a] ++ acts) with (a :: acts). rewrite (undo_loop_edit _ _ _ _ _ _ d0 Ha HP). reflexivity.
  - assert (Er : rev (AStart :: g ++ [AEnd]) = AEnd :: rev g ++ [AStart]).
    { simpl. rewrite rev_app_distr. reflexivity. }
    rewrite Er in *. clear Er.
    change (AEnd :: rev g ++ [AStart]) with ([AEnd] ++ rev g ++ [AStart]) in HP.
    apply past_app_inv in HP as (d2 & H1 & H3). apply past_one in H3.
    apply past_app_inv in H1 as (d4 & H1 & H4). apply past_one in H1.
    inversion H3; subst. inversion H1; subst.
    change ((AEnd :: rev g ++ [AStart]) ++ acts) with (AEnd :: (rev g ++ [AStart]) ++ acts).
    rewrite undo_loop_end by lia. rewrite <- app_assoc.
    destruct (undo_loop_shapes g Hg ([AStart] ++ acts) (AEnd :: und) d4 d (0 + 1)%Z 0 ltac:(lia) H4)
      as (c2 & E2 & P2).
    rewrite E2. simpl. specialize (P2 Hne).
    replace (0 <? c2) with true by (symmetry; apply Nat.ltb_lt; assumption).
    rewrite <- app_assoc. reflexivity.
Qed.

(** Symmetrically for redo. *)
Lemma redo_loop_edit : forall a acts und d nest cnt d', is_edit a -> astep a d d' ->
  redo_loop (a :: und) acts d nest cnt
  = if Z.eqb nest 0 then Val (mkBuf d' (a :: acts) und) else redo_loop und (a :: acts) d' nest (S cnt).
Proof.
  intros a acts und d nest cnt d' [H1 H2] Hs. simpl. rewrite (astep_do _ _ _ Hs). simpl.
  destruct a; try congruence; destruct (Z.eqb nest 0); reflexivity.
Qed.
Lemma redo_loop_start : forall acts und d nest cnt,
  redo_loop (AStart :: und) acts d nest cnt = redo_loop und (AStart :: acts) d (nest + 1) 0.
Proof. intros. simpl. destruct (Z.eqb (nest + 1) 0); reflexivity. Qed.

Lemma redo_loop_shapes : forall fl, shapes fl -> forall acts und d0 d nest cnt,
  (1 <= nest)%Z -> past d0 (rev fl) d ->
  exists cnt', redo_loop (fl ++ und) acts d0 nest cnt = redo_loop und (rev fl ++ acts) d nest cnt'
               /\ (fl <> [] -> 0 < cnt') /\ (0 < cnt -> 0 < cnt').
Proof.
  intros fl H. induction H as [|a l Ha H IH|g l Hg IHg Hne H IH]; intros acts und d0 d nest cnt Hn HP.
  - simpl in *. inversion HP; subst. exists cnt. split; [reflexivity|split; [congruence|auto]].
  - simpl in HP. apply past_app_inv in HP as (d1 & H1 & H2). apply past_one in H1.
    change ((a :: l) ++ und) with (a :: l ++ und).
    rewrite (redo_loop_edit a acts (l ++ und) d0 nest cnt d1 Ha H1).
    replace (Z.eqb nest 0) with false by (symmetry; apply Z.eqb_neq; lia).
    destruct (IH (a :: acts) und d1 d nest (S cnt) Hn H2) as (c1 & E1 & P1 & P2).
    rewrite E1. simpl. rewrite <- app_assoc. exists c1. split; [reflexivity|]. split; intro; apply P2; lia.
  - assert (Er : rev (AStart :: g ++ AEnd :: l) = rev l ++ [AEnd] ++ rev g ++ [AStart]).
    { simpl. rewrite rev_app_distr. simpl. rewrite <- !app_assoc. reflexivity. }
    rewrite Er in *. clear Er.
    apply past_app_inv in HP as (d1 & H1 & H2).
    apply past_app_inv in H1 as (d2 & H1 & H3). apply past_one in H3.
    apply past_app_inv in H1 as (d4 & H1 & H4). apply past_one in H1.
    inversion H3; subst. inversion H1; subst.
    change ((AStart :: g ++ AEnd :: l) ++ und) with (AStart :: (g ++ AEnd :: l) ++ und).
    rewrite redo_loop_start. rewrite <- (app_assoc g). 
    destruct (IHg (AStart :: acts) ((AEnd :: l) ++ und) d4 d1 (nest + 1)%Z 0 ltac:(lia) H4) as (c2 & E2 & P2 & _).
    rewrite E2. specialize (P2 Hne). simpl ((AEnd :: l) ++ und).
    assert (EE : redo_loop (AEnd :: l ++ und) (rev g ++ AStart :: acts) d1 (nest + 1) c2
                 = redo_loop (l ++ und) (AEnd :: rev g ++ AStart :: acts) d1 nest c2).
    { simpl. replace (nest + 1 - 1)%Z with nest by lia.
      replace (Z.eqb nest 0) with false by (symmetry; apply Z.eqb_neq; lia). reflexivity. }
    rewrite EE.
    destruct (IH (AEnd :: rev g ++ AStart :: acts) und d1 d nest c2 Hn H2) as (c3 & E3 & _ & P3).
    rewrite E3. exists c3. split; [|split; intro; apply P3; assumption].
    f_equal. rewrite <- !app_assoc. reflexivity.
Qed.

Lemma redo_shape : forall it, shape it -> forall acts und d0 d, past d0 (rev it) d ->
  buf_redo (mkBuf d0 acts (it ++ und)) = Val (true, mkBuf d (rev it ++ acts) und).
Proof.
  intros it H acts und d0 d HP. unfold buf_redo. cbn [actions undone data].
  destruct H as [a Ha|g Hg Hne].
  - simpl in HP. apply past_one in HP.
    change ([a] ++ und) with (a :: und). rewrite (redo_loop_edit _ _ _ _ _ _ d Ha HP). reflexivity.
  - assert (Er : rev (AStart :: g ++ [AEnd]) = AEnd :: rev g ++ [AStart]).
    { simpl. rewrite rev_app_distr. reflexivity. }
    rewrite Er in *. clear Er.
    change (AEnd :: rev g ++ [AStart]) with ([AEnd] ++ rev g ++ [AStart]) in HP.
    apply past_app_inv in HP as (d2 & H1 & H3). apply past_one in H3.
    apply past_app_inv in H1 as (d4 & H1 & H4). apply past_one in H1.
    inversion H3; subst. inversion H1; subst.
    change ((AStart :: g ++ [AEnd]) ++ und) with (AStart :: (g ++ [AEnd]) ++ und).
    rewrite redo_loop_start. rewrite <- app_assoc.
    destruct (redo_loop_shapes g Hg (AStart :: acts) ([AEnd] ++ und) d4 d (0 + 1)%Z 0 ltac:(lia) H4)
      as (c2 & E2 & P2 & _).
    rewrite E2. simpl. specialize (P2 Hne).
    replace (0 <? c2) with true by (symmetry; apply Nat.ltb_lt; assumption).
    rewrite <- app_assoc. reflexivity.
Qed.

(** * What running an item records *)

Fixpoint item_size (i : item) : nat :=
  match i with
  | IEdit _ => 1
  | IGroup l => S ((fix go l := match l with [] => 0 | i :: l' => item_size i + go l' end) l)
  end.
Fixpoint items_size (l : list item) : nat :=
  match l with [] => 0 | i :: l' => item_size i + items_size l' end.
Lemma item_size_group : forall l, item_size (IGroup l) = S (items_size l).
Proof. intro l. simpl. f_equal. Qed.
Lemma item_size_pos : forall i, 0 < item_size i.
Proof. destruct i; simpl; lia. Qed.

Lemma run_item_group : forall b l,
  run_item b (IGroup l) = rbind (run_items (start_undo_group b) l) (fun b' => Val (end_undo_group b')).
Proof.
  intros b l. reflexivity.
Qed.
Fixpoint no_empty_groups (l : list item) : Prop :=
  match l with [] => True | i :: l' => no_empty_group i /\ no_empty_groups l' end.
Lemma no_empty_group_eq : forall l, no_empty_group (IGroup l) <-> l <> [] /\ no_empty_groups l.
Proof.
  intro l. simpl. split; intros [H1 H2]; (split; [assumption|]); clear H1; induction l; simpl in *; tauto.
Qed.
Fixpoint items_in_range (b : buffer) (l : list item) : Prop :=
  match l with
  | [] => True
  | i :: l' => item_in_range b i /\ (forall b', run_item b i = Val b' -> items_in_range b' l')
  end.
Lemma item_in_range_group : forall b l,
  item_in_range b (IGroup l) <-> items_in_range (start_undo_group b) l.
Proof.
  intros b l. reflexivity.
Qed.

Definition recorded (P : list action -> Prop) (b b' : buffer) : Prop :=
  exists fl, P fl /\ past (data b) (rev fl) (data b') /\ actions b' = rev fl ++ actions b /\
    (fl <> [] -> undone b' = []) /\ (fl = [] -> b' = b).

Lemma run_item_recorded : forall n,
  (forall i b b', item_size i <= n -> no_empty_group i -> item_in_range b i ->
     run_item b i = Val b' -> recorded shape b b') /\
  (forall l b b', items_size l <= n -> no_empty_groups l -> items_in_range b l ->
     run_items b l = Val b' -> recorded (fun fl => shapes fl /\ (l <> [] -> fl <> [])) b b').
Proof.
  induction n as [|n [IHi IHl]]; split.
  - intros i b b' H. pose proof (item_size_pos i). lia.
  - intros [|i l] b b' H _ _ E; simpl in H; [|pose proof (item_size_pos i); lia].
    inversion E; subst. exists []. repeat split; simpl; try constructor; congruence.
  - intros i b b' Hs Hne Hr E. destruct i as [e|l].
    + simpl in Hr, E. destruct (edit_step b e Hr) as (a & d' & Hst & E' & Hn1 & Hn2).
      rewrite E' in E. inversion E; subst. exists [a]. simpl.
      split; [constructor; split; assumption|]. split; [econstructor; [constructor|assumption]|].
      split; [reflexivity|]. split; [reflexivity|discriminate].
    + rewrite item_size_group in Hs. rewrite run_item_group in E.
      apply rbind_val in E as (b1 & E1 & E2). inversion E2; subst. clear E2.
      apply no_empty_group_eq in Hne as [Hl Hne]. apply item_in_range_group in Hr.
      destruct (IHl l _ _ ltac:(lia) Hne Hr E1) as (fl & [Hsh Hfl] & HP & HA & HU & _).
      specialize (Hfl Hl).
      exists (AStart :: fl ++ [AEnd]). split; [constructor; assumption|].
      assert (Er : rev (AStart :: fl ++ [AEnd]) = AEnd :: rev fl ++ [AStart]).
      { simpl. rewrite rev_app_distr. reflexivity. }
      rewrite Er. simpl in *. split; [|split; [|split]].
      * econstructor; [|constructor]. eapply past_app; [|eassumption].
        econstructor; [constructor|constructor].
      * rewrite HA. rewrite <- app_assoc. reflexivity.
      * intros _. apply HU. assumption.
      * discriminate.
  - intros [|i l] b b' Hs Hne Hr E.
    + inversion E; subst. exists []. repeat split; simpl; try constructor; congruence.
    + simpl in Hs. cbn [run_items] in E. apply rbind_val in E as (b1 & E1 & E2).
      destruct Hne as [Hn1 Hn2]. destruct Hr as [Hr1 Hr2].
      (* the head may have the full size when the tail is empty *)
      assert (Hi : recorded shape b b1).
      { destruct i as [e|g].
        - simpl in Hr1, E1. destruct (edit_step b e Hr1) as (a & d' & Hst & E' & Hne1 & Hne2).
          rewrite E' in E1. inversion E1; subst. exists [a]. simpl.
          split; [constructor; split; assumption|]. split; [econstructor; [constructor|assumption]|].
          split; [reflexivity|]. split; [reflexivity|discriminate].
        - rewrite item_size_group in Hs. rewrite run_item_group in E1.
          apply rbind_val in E1 as (b2 & E3 & E4). inversion E4; subst. clear E4.
          apply no_empty_group_eq in Hn1 as [Hl Hn1]. apply item_in_range_group in Hr1.
          destruct (IHl g _ _ ltac:(lia) Hn1 Hr1 E3) as (fl & [Hsh Hfl] & HP & HA & HU & _).
          specialize (Hfl Hl).
          exists (AStart :: fl ++ [AEnd]). split; [constructor; assumption|].
          assert (Er : rev (AStart :: fl ++ [AEnd]) = AEnd :: rev fl ++ [AStart]).
          { simpl. rewrite rev_app_distr. reflexivity. }
          rewrite Er. simpl in *. split; [|split; [|split]].
          + econstructor; [|constructor]. eapply past_app; [|eassumption].
            econstructor; [constructor|constructor].
          + rewrite HA. rewrite <- app_assoc. reflexivity.
          + intros _. apply HU. assumption.
          + discriminate. }
      destruct Hi as (f1 & S1 & P1 & A1 & U1 & _).
      destruct (IHl l b1 b' ltac:(pose proof (item_size_pos i); lia) Hn2 (Hr2 b1 E1) E2)
        as (f2 & [S2 Z2] & P2 & A2 & U2 & F2).
      exists (f1 ++ f2). split; [|split; [|split; [|split]]].
      * split; [apply shapes_app; [apply shape_shapes|]; assumption|].
        intros _ C. apply app_eq_nil in C as [C _]. apply shape_nonempty in S1. congruence.
      * rewrite rev_app_distr. eapply past_app; eassumption.
      * rewrite A2, A1, rev_app_distr, app_assoc. reflexivity.
      * intros _. destruct f2 as [|x f2].
        -- rewrite (F2 eq_refl). apply U1. apply shape_nonempty. assumption.
        -- apply U2. discriminate.
      * intro C. apply app_eq_nil in C as [C _]. apply shape_nonempty in S1. congruence.
Qed.

Lemma run_item_rec : forall i b b', no_empty_group i -> item_in_range b i ->
  run_item b i = Val b' -> recorded shape b b'.
Proof. intros i b b'. apply (proj1 (run_item_recorded (item_size i))). apply le_n. Qed.

(** * C02 *)
Lemma undo_item : forall b i b', no_empty_group i -> item_in_range b i -> run_item b i = Val b' ->
  exists b'', buf_undo b' = Val (true, b'') /\ data b'' = data b /\ actions b'' = actions b.
Proof.
  intros b i b' H1 H2 E. destruct (run_item_rec i b b' H1 H2 E) as (fl & S & P & A & U & _).
  destruct b' as [d' a' u']. simpl in *. subst a'.
  rewrite (undo_shape fl S (actions b) u' (data b) d' P). eexists. split; [reflexivity|]. auto.
Qed.
Lemma undo_edit : forall b e b', edit_in_range (length (data b)) e -> run_edit b e = Val b' ->
  exists b'', buf_undo b' = Val (true, b'') /\ data b'' = data b /\ actions b'' = actions b.
Proof. intros b e b' H E. apply (undo_item b (IEdit e) b'); simpl; auto. Qed.

(** * C03, second half *)
Definition ginv (b : buffer) : Prop :=
  exists fl d0, shapes fl /\ shapes (undone b) /\ actions b = rev fl /\
    past d0 (actions b) (data b) /\ exists d1, future d1 (undone b) (data b).

Lemma future_past : forall l d d1, future d1 l d -> past d (rev l) d1.
Proof.
  intros l d d1 H. induction H as [|a und d d' H IH Hs]; [constructor|].
  simpl. eapply past_app; [|eassumption]. econstructor; [constructor|assumption].
Qed.
Lemma past_future : forall l d d1, past d (rev l) d1 -> future d1 l d.
Proof.
  induction l as [|a l IH]; simpl; intros d d1 H.
  - inversion H; subst. constructor.
  - apply past_app_inv in H as (d2 & H1 & H2). apply past_one in H1.
    econstructor; [apply IH; eassumption|assumption].
Qed.
Lemma future_app : forall l1 l2 d d1 d2, future d1 l1 d -> future d2 l2 d1 -> future d2 (l1 ++ l2) d.
Proof. intros l1 l2 d d1 d2 H1 H2. induction H1; simpl; [assumption|econstructor; eauto]. Qed.
Lemma future_app_inv : forall l1 l2 d d2, future d2 (l1 ++ l2) d ->
  exists d1, future d1 l1 d /\ future d2 l2 d1.
Proof.
  induction l1 as [|a l1 IH]; simpl; intros l2 d d2 H.
  - exists d. split; [constructor|assumption].
  - inversion H as [|? ? ? d' HF Hs]; subst. destruct (IH _ _ _ HF) as (d1 & H1 & H2).
    exists d1. split; [econstructor; eassumption|assumption].
Qed.

Lemma ginv_undo : forall b, ginv b -> actions b <> [] ->
  exists b', buf_undo b = Val (true, b') /\ ginv b' /\ buf_redo b' = Val (true, b).
Proof.
  intros [d a u] (fl & d0 & S1 & S2 & HA & HP & d1 & HF) Hne. simpl in *.
  assert (Hfl : fl <> []) by (intro; subst; simpl in *; congruence).
  destruct (shapes_snoc fl S1 Hfl) as (l' & it & E & Sl & Si). subst fl a.
  rewrite rev_app_distr in *. apply past_app_inv in HP as (d2 & P1 & P2).
  rewrite (undo_shape it Si (rev l') u d2 d P2). eexists. split; [reflexivity|]. split.
  - exists l', d0. simpl. repeat split; auto.
    + apply shapes_app; [apply shape_shapes; assumption|assumption].
    + exists d1. eapply future_app; [apply past_future|]; eassumption.
  - rewrite (redo_shape it Si (rev l') u d2 d P2). reflexivity.
Qed.
Lemma ginv_redo : forall b, ginv b -> undone b <> [] ->
  exists b', buf_redo b = Val (true, b') /\ ginv b' /\ buf_undo b' = Val (true, b).
Proof.
  intros [d a u] (fl & d0 & S1 & S2 & HA & HP & d1 & HF) Hne. simpl in *.
  destruct (shapes_cons u S2 Hne) as (it & l' & E & Si & Sl). subst u a.
  apply future_app_inv in HF as (d2 & F1 & F2).
  pose proof (future_past _ _ _ F1) as P1.
  rewrite (redo_shape it Si (rev fl) l' d d2 P1). eexists. split; [reflexivity|]. split.
  - exists (fl ++ it), d0. simpl. repeat split; auto.
    + apply shapes_app; [assumption|apply shape_shapes; assumption].
    + rewrite rev_app_distr. reflexivity.
    + eapply past_app; eassumption.
    + exists d1. assumption.
  - rewrite (undo_shape it Si (rev fl) l' d d2 P1). reflexivity.
Qed.
Lemma grouped_ginv : forall b, grouped b -> ginv b.
Proof.
  intros b H. induction H as [t|b i b' H IH Hn Hr E|b r b' H IH E|b r b' H IH E|b H IH].
  - exists [], t. simpl. repeat split; try constructor. exists t. constructor.
  - destruct (run_item_rec i b b' Hn Hr E) as (f & S & P & A & U & _).
    destruct IH as (fl & d0 & S1 & S2 & HA & HP & d1 & HF).
    exists (fl ++ f), d0. rewrite A, HA, <- rev_app_distr. split; [|split; [|split; [|split]]].
    + apply shapes_app; [assumption|apply shape_shapes; assumption].
    + rewrite U by (apply shape_nonempty; assumption). constructor.
    + reflexivity.
    + rewrite rev_app_distr. eapply past_app; [|eassumption]. rewrite <- HA. assumption.
    + exists (data b'). rewrite U by (apply shape_nonempty; assumption). constructor.
  - destruct (actions b) as [|a l] eqn:Ea.
    + rewrite (undo_noacts b Ea) in E. inversion E; subst. assumption.
    + destruct (ginv_undo b IH) as (b1 & E1 & G & _); [congruence|]. rewrite E1 in E.
      inversion E; subst. assumption.
  - destruct (undone b) as [|a l] eqn:Ea.
    + rewrite (redo_nound b Ea) in E. inversion E; subst. assumption.
    + destruct (ginv_redo b IH) as (b1 & E1 & G & _); [congruence|]. rewrite E1 in E.
      inversion E; subst. assumption.
  - exists [], (data b). simpl. repeat split; try constructor. exists (data b). constructor.
Qed.
Lemma grouped_undo_redo : forall b, grouped b ->
  exists r b', buf_undo b = Val (r, b') /\
    (r = true -> buf_redo b' = Val (true, b)) /\ (r = false -> b' = b).
Proof.
  intros b H. apply grouped_ginv in H. destruct (actions b) as [|a l] eqn:Ea.
  - exists false, b. rewrite (undo_noacts b Ea). repeat split; intro; congruence.
  - destruct (ginv_undo b H) as (b1 & E1 & G & R); [congruence|].
    exists true, b1. repeat split; auto. discriminate.
Qed.
Lemma grouped_redo_undo : forall b, grouped b ->
  exists r b', buf_redo b = Val (r, b') /\
    (r = true -> buf_undo b' = Val (true, b)) /\ (r = false -> b' = b).
Proof.
  intros b H. apply grouped_ginv in H. destruct (undone b) as [|a l] eqn:Ea.
  - exists false, b. rewrite (redo_nound b Ea). repeat split; intro; congruence.
  - destruct (ginv_redo b H) as (b1 & E1 & G & R); [congruence|].
    exists true, b1. repeat split; auto. discriminate.
Qed.

(** * Further facts used by the property file *)
Lemma empty_insert : forall b s, exists b', buf_insert b s [] = Val b' /\ data b' = data b.
Proof. intros b s. rewrite insert_nil. eexists. split; reflexivity. Qed.
Lemma remove_count : forall b a m c, data b = a ++ m ++ c ->
  exists b', buf_remove b (length a) (length a + length m) = Val (length m, b') /\
             data b' = a ++ c.
Proof. intros b a m c H. rewrite (remove_app b a m c H). eexists. split; reflexivity. Qed.
Lemma undo_far_empty_insert : exists b b', run_edit b (EInsert 1 []) = Val b' /\
  (exists p, buf_undo b' = Pan p).
Proof.
  exists (buf_of []). eexists. split; [vm_compute; reflexivity|]. eexists. vm_compute. reflexivity.
Qed.
Lemma undo_empty_nested : exists b i b' b'',
  item_in_range b i /\ run_item b i = Val b' /\ buf_undo b' = Val (true, b'') /\
  data b'' <> data b.
Proof.
  exists (mkBuf (str "z") [AInsert 0 (str "z")] []), (IGroup [IGroup []; IEdit (EInsert 1 (str "a"))]).
  eexists _, _. split; [|split; [vm_compute; reflexivity|split; [vm_compute; reflexivity|discriminate]]].
  simpl. split; [exact I|]. intros b' E. inversion E; subst. simpl. split; [lia|auto].
Qed.
Lemma redo_after_undos_latest : forall t b n, reach t b -> undone b = [] ->
  exists b' r', undo_n n b = Val b' /\ redo_to_end b' r' /\ data r' = data b.
Proof.
  intros t b n H U. destruct (redo_after_undos t b n H) as (b' & r & r' & E & R & R' & D).
  exists b', r'. repeat split; auto. rewrite D.
  assert (redo_to_end b b) as RR by (apply redo_stop, redo_nound; assumption).
  rewrite (redo_to_end_det _ _ _ R RR). reflexivity.
Qed.
Lemma undo_redo_counterexample : exists ops b b1 b2,
  run_ops (buf_of []) ops = Val b /\ buf_undo b = Val (true, b1) /\
  buf_redo b1 = Val (true, b2) /\ data b2 <> data b.
Proof.
  exists [OStart; OEdit (EInsert 0 (str "a")); OEdit (EInsert 1 (str "b")); OUndo; OUndo].
  eexists _, _, _. split; [vm_compute; reflexivity|]. split; [vm_compute; reflexivity|].
  split; [vm_compute; reflexivity|discriminate].
Qed.
Lemma revert_counterexample : exists ops b p,
  run_ops (buf_of []) ops = Val b /\ buf_revert b = Pan p.
Proof.
  exists [OEdit (EInsert 1 [])]. eexists _, _. split; vm_compute; reflexivity.
Qed.
Lemma reach_revert_answer : forall t b, reach t b ->
  exists b', buf_revert b = Val (nonempty (actions b), b') /\ data b' = t /\ actions b' = [].
Proof.
  intros t b H. destruct (reach_inv t b H) as [d1 I].
  destruct (revert_inv b t d1 I) as (b' & E & _ & A & D). eauto.
Qed.

(** For the examples in BufferProps.v *)
Ltac in_range :=
  repeat match goal with
  | |- _ /\ _ => split
  | |- forall b, _ = Val b -> _ =>
    let b := fresh in let E := fresh in intros b E; vm_compute in E; injection E as <-
  | |- True => exact I
  | |- _ <= _ => simpl; lia
  | |- item_in_range _ _ => simpl
  end.
Definition example_group : item :=
  IGroup [IGroup [IEdit (EInsert 1 (str "xy"))]; IEdit (ERemove 0 2); IGroup [IEdit (ETruncate 1)]].
