(** Whole Vi commands given in normal mode. *)
From Verif Require Import Base Utf8 BufferModel UtilModel HistoryModel EditorState EditorModel
  KeymapModel ViModel MonadLemmas EditorLemmas CursorProofs Lemmas BufferProofs EditorSpec EditorProofs
  EditorOps Tests Samples ViSpec ViEffects ViModes ViRepeat ViMotion ViKeys.
Local Open Scope monad_scope.

(** Waiting for a command on the line [b]. *)
Definition calm (v : vi) (s : ed) (b : buffer) (c : nat) : Prop :=
  v_stack v = [] /\ v_count v = 0%N /\ view s b c true /\ (c < length (data b) \/ data b = [] /\ c = 0).

Lemma clamp_range : forall t c, let c' := clamp_cursor true (@length N t) c in
  c' < length t \/ t = [] /\ c' = 0.
Proof.
  intros t c. cbv zeta. destruct t as [|x t].
  - right. split; [reflexivity|]. unfold clamp_cursor. cbn [length]. destruct c; reflexivity.
  - left. set (n := length (x :: t)). assert (0 < n) by (unfold n; cbn [length]; lia). clearbody n.
    unfold clamp_cursor. destruct (n <? c) eqn:E1.
    + rewrite Nat.eqb_refl. destruct n; [lia|]. cbn. lia.
    + apply Nat.ltb_ge in E1. destruct (c =? n) eqn:E2.
      * apply Nat.eqb_eq in E2. subst c. destruct n; [lia|]. cbn. lia.
      * apply Nat.eqb_neq in E2. rewrite andb_false_r. lia.
Qed.
Lemma clamp_calm : forall t c, (c < @length N t \/ t = [] /\ c = 0) -> clamp_cursor true (length t) c = c.
Proof. intros t c [H|[-> ->]]; [apply clamp_in; exact H|reflexivity]. Qed.
Lemma clamp_false : forall n c, c <= n -> clamp_cursor false n c = c.
Proof.
  intros n c H. unfold clamp_cursor. assert (n <? c = false) as -> by (apply Nat.ltb_ge; exact H).
  reflexivity.
Qed.

Lemma session_inv : forall v s, vi_session v s -> (exists n, J n v) /\ viI (v, s).
Proof.
  intros v s [E [p [f [ib [h [w [cb [tt0 [s0 [l [H0 H1]]]]]]]]]]]. split.
  - pose proof (vk_session E l s0) as H. rewrite H1 in H. exact H.
  - apply editor_new_curok in H0.
    assert (H : kpres (vi_init E ;;; run_keys vi_core l) viI).
    { apply kpres_bind; [apply kp_vi_init|]. intro. apply kpres_run_keys; [exact viI_local|exact kp_vi_core]. }
    specialize (H (vi_new, s0)). assert (HI : viI (vi_new, s0)) by (destruct H0; split; assumption).
    exact (wp_ret_of _ _ _ _ _ _ _ (H HI) H1).
Qed.
Lemma session_more : forall v s l v' s', vi_session v s ->
  run_keys vi_core l (v, s) = ORet false (v', s') -> vi_session v' s'.
Proof.
  intros v s l v' s' [E [p [f [ib [h [w [cb [tt0 [s0 [l0 [H0 H1]]]]]]]]]]] H.
  exists E, p, f, ib, h, w, cb, tt0, s0, (l0 ++ l). split; [exact H0|].
  unfold bind in *. destruct (vi_init E (vi_new, s0)) as [u x| | |]; try discriminate.
  rewrite run_keys_app. unfold bind. rewrite H1. exact H.
Qed.

Lemma ready_calm : forall v s t c, ready v s t c -> exists b, data b = t /\ calm v s b c.
Proof.
  intros v s t c [Hs [Hm [Hc [Hn [b [H1 [H2 H3]]]]]]]. destruct (session_inv v s Hs) as [[n HJ] [HI1 HI2]].
  cbn [fst snd] in *. exists (opened s b). rewrite data_opened. split; [exact H2|]. split.
  - unfold vmode_of in Hm. pose proof (j_shape _ _ HJ) as Hsh. destruct Hsh; cbn in Hm; congruence || reflexivity.
  - split; [exact Hc|]. rewrite Hm in HI2. cbn [is_normal] in HI2. split.
    + pose proof (view_of s b Hn H1) as V. rewrite H3, HI2 in V. exact V.
    + rewrite data_opened, H2. destruct HI1 as [b' [K1 K2]]. assert (b' = b) by congruence. subst b'.
      rewrite HI2, H3 in K2. unfold num_chars in K2. rewrite H2 in K2. rewrite <- K2. apply clamp_range.
Qed.
Lemma calm_ready : forall v s l v' s' b c, vi_session v s ->
  run_keys vi_core l (v, s) = ORet false (v', s') -> calm v' s' b c -> ready v' s' (data b) c.
Proof.
  intros v s l v' s' b c H0 H1 [C1 [C2 [C3 _]]]. split; [exact (session_more _ _ _ _ _ H0 H1)|].
  split; [unfold vmode_of; rewrite C1; reflexivity|]. split; [exact C2|].
  pose proof C3 as [V1 [_ [V3 _]]]. split; [exact V1|]. destruct (view_line _ _ _ _ C3) as [b0 [K1 K2]].
  exists b0. auto.
Qed.

(** From what typing does to a theorem about sessions. *)
Lemma ready_typing : forall v s t c P ks l d v' s' (Q : buffer -> vi -> ed -> Prop),
  ready v s t c -> (forall b, data b = t -> calm v s b c -> typing P ks v s (Q b)) ->
  map snd l = ks -> Forall (fun x => P (fst x)) l -> run_keys vi_core l (v, s) = ORet d (v', s') ->
  d = false /\ exists b, data b = t /\ Q b v' s' /\ calm v s b c.
Proof.
  intros v s t c P ks l d v' s' Q Hr HT Hl HP H. destruct (ready_calm v s t c Hr) as [b [Hb Hc]].
  pose proof (HT b Hb Hc l Hl HP) as HQ. unfold okv in HQ. rewrite H in HQ. destruct HQ as [H1 H2].
  split; [exact H1|]. exists b. auto.
Qed.

(** * Motions given in normal mode *)

Lemma counting_calm : forall v s b c, calm v s b c -> counting v.
Proof. intros v s b c [H _]. left. unfold vmode_of. rewrite H. reflexivity. Qed.

(** A count, then a key. *)
Lemma typing_counted : forall (P : env -> Prop) ks n k v s b c (Q : vi -> ed -> Prop), calm v s b c -> count ks n -> passes k ->
  (forall E rec v1 s1, P E -> v1 = vset_count (stored ks n) v -> move_count v1 = n -> v_stack v1 = [] ->
     view s1 b c true -> okv (vi_normal rec E k) v1 s1 (fun _ v' s' => Q v' (set_hint None s'))) ->
  typing P (ks ++ [k]) v s Q.
Proof.
  intros P ks n k v s b c Q HC Hk Hp H. apply typing_app.
  eapply typing_count; [exact Hk|exact (counting_calm _ _ _ _ HC)|apply HC|].
  intros s1 Hs1. apply typing_cons; [exact Hp|]. intros E HE. apply okv_core. intro rec.
  destruct HC as [C1 [C2 [C3 C4]]].
  assert (vmode_of (vset_count (stored ks n) v) = MNormal) as -> by (unfold vmode_of; cbn; rewrite C1; reflexivity).
  eapply okv_mono.
  - apply (H E rec (vset_count (stored ks n) v) s1 HE eq_refl).
    + apply (stored_move ks n); [exact Hk|reflexivity].
    + exact C1.
    + destruct Hs1 as [-> | ->]; [exact C3|apply view_hint; exact C3].
  - intros ? v' s' HQ. apply typing_nil. exact HQ.
Qed.

Lemma after_plain_calm : forall E mt v s b c e, view s b c e -> v_stack v = [] ->
  okv (pop_mode_after_movement E mt) v s (fun _ v' s' =>
    calm v' (set_hint None s') b (clamp_cursor true (length (data b)) c) /\ v_lcm v' = v_lcm v).
Proof.
  intros E mt v s b c e V Hs. eapply okv_mono; [apply (okv_after_plain E mt v s b c e V); auto|].
  intros ? v' s' [H1 [H2 [H3 H4]]]. split; [|exact H3]. split; [exact H1|]. split.
  - destruct H2 as [H2|[H2 _]]; [exact H2|contradiction].
  - split; [apply view_hint; exact H4|apply clamp_range].
Qed.

Lemma typing_onekey : forall P ks n k p v s b c, calm v s b c -> count ks n -> passes k ->
  onekey k n (length (data b)) c p ->
  typing P (ks ++ [k]) v s (fun v' s' => calm v' s' b (clamp_cursor true (length (data b)) p) /\ v_lcm v' = v_lcm v).
Proof.
  intros P ks n k p v s b c HC Hk Hp Ho. eapply typing_counted; [exact HC|exact Hk|exact Hp|].
  intros E rec v1 s1 _ Hv1 Hm Hst V. eapply okv_onekey; [exact V|rewrite Hm; exact Ho|].
  intros s' V'. eapply okv_mono; [eapply after_plain_calm; [exact V'|exact Hst]|].
  intros ? v' s2 [H1 H2]. rewrite clamp_idem in H1. split; [exact H1|]. rewrite H2, Hv1. reflexivity.
Qed.

Lemma typing_zero : forall P v s b c, calm v s b c ->
  typing P [kch "0"] v s (fun v' s' => calm v' s' b 0).
Proof.
  intros P v s b c HC. change [kch "0"] with ([] ++ [kch "0"]).
  eapply typing_counted; [exact HC|exact count_none|split; discriminate|].
  intros E rec v1 s1 _ Hv1 Hm Hst V. eapply okv_zero; [exact V|rewrite Hv1; reflexivity|].
  intros s' V'. eapply okv_mono; [eapply after_plain_calm; [exact V'|exact Hst]|].
  intros ? v' s2 [H1 _]. rewrite clamp_0 in H1. exact H1.
Qed.

(** ** Word motions *)
Lemma word_keys_passes : forall m big, Forall passes (word_keys m big).
Proof. intros m big. destruct m, big; repeat constructor; discriminate. Qed.

Definition blank_not_key (U : unicode) : Prop := forall x, u_white U x = true -> is_vi_keyword U x = false.

Lemma clamp_word : forall e n p, clamp_cursor true n (clamp_cursor e n (Nat.min p n)) = clamp_cursor true n (Nat.min p n).
Proof. intros [|] n p; [apply clamp_idem|]. rewrite (clamp_false n) by lia. reflexivity. Qed.


Lemma typing_word : forall U ks n m big v s b c, calm v s b c -> count ks n -> blank_not_key U ->
  typing (fun E => e_uni E = U) (ks ++ word_keys m big) v s (fun v' s' => exists p,
    hops (word_hop U m big (data b)) (word_stop m (data b)) (N.to_nat n) c p /\ calm v' s' b p).
Proof.
  intros U ks n m big v s b c HC Hk HU.
  assert (Hh : hops (word_hop U m big (data b)) (word_stop m (data b)) (N.to_nat n) c
    (clamp_cursor true (length (data b)) (Nat.min (iterp (N.to_nat n) (word_once U m big (data b)) c) (length (data b)))))
    by (apply word_hops; [exact HU|apply HC]).
  assert (H1 : forall k, word_keys m big = [k] ->
    typing (fun E => e_uni E = U) (ks ++ word_keys m big) v s (fun v' s' => exists p,
      hops (word_hop U m big (data b)) (word_stop m (data b)) (N.to_nat n) c p /\ calm v' s' b p)).
  { intros k Hw. pose proof (word_keys_passes m big) as Hp. rewrite Hw in *. inversion Hp; subst.
    eapply typing_counted; [exact HC|exact Hk|assumption|].
    intros E rec v1 s1 HE Hv1 Hm Hst V. eapply okv_word1; [exact V|exact Hw|]. rewrite HE, Hm.
    intros s' V'. eapply okv_mono; [eapply after_plain_calm; [exact V'|exact Hst]|].
    intros ? v' s2 [K1 K2]. rewrite clamp_idem in K1. eexists. split; [exact Hh|exact K1]. }
  destruct m; try (destruct big; eapply H1; reflexivity). clear H1.
  assert (exists k, word_keys WBackEnd big = [kch "g"] ++ [k]) as [k Hw] by (destruct big; eexists; reflexivity).
  pose proof (word_keys_passes WBackEnd big) as Hp. rewrite Hw in *. inversion_clear Hp as [|? ? P1 Hp']. inversion_clear Hp' as [|? ? P2 _].
  rewrite app_assoc. apply typing_app. eapply typing_counted; [exact HC|exact Hk|exact P1|].
  intros E rec v1 s1 HE Hv1 Hm Hst V. unfold kch, vi_normal. decide_okv. apply okv_set_mode; [exact I|].
  apply typing_cons; [exact P2|]. intros E' HE'. apply okv_core. intro rec'.
  cbn [vmode_of v_stack vset_stack]. 
  eapply okv_ge; [apply view_hint; eapply view_noeol; exact V|exact Hw|].
  intros s' V'. eapply okv_mono.
  - eapply okv_after_plain; [exact V'|]. right. exists MG. split; [left; reflexivity|]. cbn. rewrite Hst. reflexivity.
  - intros ? v' s2 [K1 [_ [_ K4]]]. apply typing_nil. eexists. split; [exact Hh|].
    change (move_count (vset_stack (MG :: v_stack v1) (vset_reset true v1))) with (move_count v1) in K4.
    rewrite Hm, HE', clamp_word in K4.
    split; [exact K1|]. split; [reflexivity|]. split; [apply view_hint; exact K4|]. apply clamp_range.
Qed.

(** ** Character searches *)
Lemma searched_calm : forall m t c x n p e, (c < length t \/ t = [] /\ c = 0) -> searched m t c x n p ->
  clamp_cursor true (length t) p = p /\ clamp_cursor e (length t) p = p.
Proof.
  intros m t c x n p e Hc H.
  assert (Hp : p < length t \/ t = [] /\ p = 0).
  { destruct H as [[q [H ->]]|[_ ->]]; [|exact Hc].
    destruct m; cbn [search_hit search_stop] in *; try contradiction;
    destruct H as [a [r [z [-> [H1 [_ ->]]]]]]; left; rewrite !app_length in *; cbn [length] in *;
      rewrite ?app_length in *; try lia. }
  split; [apply clamp_calm; exact Hp|]. destruct e; [apply clamp_calm; exact Hp|].
  apply clamp_false. destruct Hp as [Hp|[_ ->]]; lia.
Qed.
Lemma in_line : forall (t : text) c, (c < length t \/ t = [] /\ c = 0) -> c <= length t.
Proof. intros t c [H|[-> ->]]; cbn; lia. Qed.

Lemma typing_search : forall P ks n m k x v s b c, calm v s b c -> count ks n -> search_key m = Some k ->
  x <> c_tab -> x <> c_nl ->
  typing P (ks ++ [k; KChar x]) v s (fun v' s' => exists p,
    searched m (data b) c x n p /\ calm v' s' b p /\ v_lcm v' = Some (x, m)).
Proof.
  intros P ks n m k x v s b c HC Hk Hm N1 N2.
  assert (Hp : passes k) by (destruct m; cbn in Hm; try discriminate; injection Hm as <-; split; discriminate).
  change [k; KChar x] with ([k] ++ [KChar x]). rewrite app_assoc. apply typing_app.
  eapply typing_counted; [exact HC|exact Hk|exact Hp|].
  intros E rec v1 s1 HE Hv1 Hmc Hst V.
  assert (Hset : okv (set_mode E (MMoveToChar m)) v1 s1 (fun _ v' s' => typing P [KChar x] v' (set_hint None s')
      (fun v' s' => exists p, searched m (data b) c x n p /\ calm v' s' b p /\ v_lcm v' = Some (x, m)))).
  { apply okv_set_mode; [exact I|]. apply typing_cons; [split; assumption|]. intros E' HE'. apply okv_core. intro rec'.
    cbn [vmode_of v_stack vset_stack]. apply okv_search; [unfold real; congruence|].
    eapply okv_search_body; [apply view_hint; eapply view_noeol; exact V|unfold real; congruence|apply in_line; apply HC|].
    change (move_count (vset_stack (MMoveToChar m :: v_stack v1) (vset_reset true v1))) with (move_count v1).
    rewrite Hmc. intros s' p Hs V'. destruct (searched_calm m (data b) c x n p false (proj2 (proj2 (proj2 HC))) Hs) as [K1 K2].
    rewrite K2 in V'. assert (V2 : view s' b p false) by (destruct V'; assumption).
    eapply okv_mono.
    - eapply okv_after_plain; [exact V2|]. right. exists (MMoveToChar m).
      split; [right; exists m; reflexivity|]. cbn. rewrite Hst. reflexivity.
    - intros ? v' s2 [L1 [L2 [L3 L4]]]. rewrite K1 in L4. apply typing_nil. exists p. split; [exact Hs|].
      split; [|exact L3]. split; [exact L1|]. split; [destruct L2 as [L2|[_ L2]]; exact L2|].
      split; [apply view_hint; exact L4|]. rewrite <- K1. apply clamp_range. }
  destruct m; cbn in Hm; try discriminate; injection Hm as <-; unfold kch, vi_normal; decide_okv; exact Hset.
Qed.

Lemma search_body_calm : forall E x m n v s b c, view s b c true -> (c < length (data b) \/ data b = [] /\ c = 0) ->
  real m -> v_stack v = [] ->
  okv (search_body E x m n) v s (fun _ v' s' => exists p, searched m (data b) c x n p /\
    calm v' (set_hint None s') b p /\ v_lcm v' = v_lcm v).
Proof.
  intros E x m n v s b c V Hc Hm Hst. eapply okv_search_body; [exact V|exact Hm|apply in_line; exact Hc|].
  intros s' p Hs V'. destruct (searched_calm m (data b) c x n p true Hc Hs) as [K1 K2].
  rewrite K2 in V'. assert (V2 : view s' b p true) by (destruct V'; assumption).
  eapply okv_mono; [eapply after_plain_calm; [exact V2|exact Hst]|].
  intros ? v' s2 [L1 L2]. rewrite K1 in L1. exists p. auto.
Qed.
Lemma typing_again : forall P ks n m x v s b c, calm v s b c -> count ks n -> v_lcm v = Some (x, m) -> real m ->
  typing P (ks ++ [kch ";"]) v s (fun v' s' => exists p,
    searched m (data b) c x n p /\ calm v' s' b p /\ v_lcm v' = v_lcm v).
Proof.
  intros P ks n m x v s b c HC Hk Hl Hm. eapply typing_counted; [exact HC|exact Hk|split; discriminate|].
  intros E rec v1 s1 HE Hv1 Hmc Hst V. unfold kch, vi_normal. decide_okv.
  eapply okv_search_again; [rewrite Hv1; exact Hl|]. rewrite Hmc.
  eapply okv_mono; [eapply search_body_calm; [exact V|apply HC|exact Hm|exact Hst]|].
  intros ? v' s' [p [H1 [H2 H3]]]. exists p. split; [exact H1|]. split; [exact H2|]. rewrite H3, Hv1. reflexivity.
Qed.
Lemma typing_reverse : forall P ks n m x v s b c, calm v s b c -> count ks n -> v_lcm v = Some (x, m) -> real m ->
  typing P (ks ++ [kch ","]) v s (fun v' s' => exists p,
    searched (reverse_search m) (data b) c x n p /\ calm v' s' b p /\ v_lcm v' = v_lcm v).
Proof.
  intros P ks n m x v s b c HC Hk Hl Hm. eapply typing_counted; [exact HC|exact Hk|split; discriminate|].
  intros E rec v1 s1 HE Hv1 Hmc Hst V. unfold kch, vi_normal. decide_okv.
  eapply okv_search_back; [rewrite Hv1; exact Hl|exact Hm|]. rewrite Hmc.
  assert (real (reverse_search m)) by (destruct m; try exact Hm; discriminate).
  eapply okv_mono; [eapply search_body_calm; [exact V|apply HC|assumption|exact Hst]|].
  intros ? v' s' [p [H1 [H2 H3]]]. exists p. split; [exact H1|]. split; [exact H2|]. rewrite H3, Hv1. reflexivity.
Qed.

(** * Deletions *)

Definition stop_at (t : text) (i : nat) : nat := Nat.min i (length t - 1).
Lemma clamp_stop : forall (t : text) i, i <= length t -> clamp_cursor true (length t) i = stop_at t i.
Proof.
  intros t i Hi. unfold stop_at. destruct (Nat.eq_dec i (length t)) as [->|Hn].
  - rewrite clamp_end. lia.
  - rewrite clamp_in by lia. lia.
Qed.

(** The positions [i..j) of [b] are gone. *)
Definition gone (b : buffer) (i j : nat) (v : vi) (s : ed) : Prop :=
  exists a m r, data b = a ++ m ++ r /\ length a = i /\ length a + length m = j /\
    calm v s (cut b a m r) (stop_at (a ++ r) i).
Lemma gone_intro : forall b i j v s a m r, data b = a ++ m ++ r -> length a = i -> length a + length m = j ->
  v_stack v = [] -> v_count v = 0%N ->
  view s (cut b a m r) (clamp_cursor true (length (a ++ r)) i) true -> gone b i j v (set_hint None s).
Proof.
  intros b i j v s a m r H1 H2 H3 H4 H5 H6. exists a, m, r. split; [exact H1|]. split; [exact H2|]. split; [exact H3|].
  split; [exact H4|]. split; [exact H5|]. rewrite <- clamp_stop by (rewrite app_length; lia).
  split; [apply view_hint; exact H6|]. unfold cut. cbn [data]. apply clamp_range.
Qed.

(** [d] and [c]: the key, the modes below, the remembered key, and what it does
    to the buffer straight away. *)
Inductive oper := Del | Chg.
Definition op_key (o : oper) : key := match o with Del => kch "d" | Chg => kch "c" end.
Definition op_stack (o : oper) : list vmode := match o with Del => [] | Chg => [MInsert] end.
Definition op_ins (o : oper) : option key := match o with Del => None | Chg => Some (kch "c") end.
Definition op_buf (o : oper) (b : buffer) : buffer := match o with Del => b | Chg => start_undo_group b end.
Lemma op_base : forall o, base (op_stack o).
Proof. intros []; [left|right]; reflexivity. Qed.
Lemma op_data : forall o b, data (op_buf o b) = data b.
Proof. intros [] b; reflexivity. Qed.

(** Insert mode was entered, and [b] is the line. *)
Definition inserting (v : vi) (s : ed) (b : buffer) (c : nat) : Prop :=
  v_stack v = [MInsert] /\ v_reset v = false /\ view s b c false /\ c <= length (data b).
(** The positions [i..j) of [b] are gone, or being replaced. *)
Definition went (o : oper) (b : buffer) (i j : nat) (v : vi) (s : ed) : Prop :=
  match o with
  | Del => gone b i j v s
  | Chg => exists a m r, data b = a ++ m ++ r /\ length a = i /\ length a + length m = j /\
      v_count v = 0%N /\ inserting v s (cut (start_undo_group b) a m r) i
  end.

(** Entering insert mode. *)
Lemma okv_set_insert : forall E v s b c e, view s b c e -> c <= length (data b) ->
  okv (set_mode E MInsert) v s (fun _ v' s' =>
    v' = vset_last [] (vset_lcount 0 (vset_stack (MInsert :: v_stack v) (vset_reset false v))) /\
    view s' (start_undo_group b) c false).
Proof.
  intros E v s b c e V Hc. unfold set_mode, set_mode_preserve_last. apply okv_bind, okv_mod_ed, okv_modk.
  eapply okv_seq; [eapply okv_set_editor_mode; [right; reflexivity|eapply view_noeol; exact V]|].
  intros ? v1 s1 [-> V1]. cbn [is_insert is_tilde is_normal orb when negb] in *. rewrite clamp_false in V1 by exact Hc.
  apply okv_lift. eapply ok_mono; [apply (ok_mut _ _ _ _ _ V1)|]. intros ? s2 [b2 [Hb2 [V2 _]]].
  apply okv_modk1. split; [reflexivity|]. unfold pure_op in Hb2. injection Hb2 as _ <-. exact V2.
Qed.

(** The operator was typed, after a count stored as [k1], and then a count stored as [k2]. *)
Definition operating (o : oper) (v : vi) (s : ed) (b : buffer) (c : nat) (k1 k2 : N) : Prop :=
  v_stack v = MDelete c :: op_stack o /\ v_sec v = k1 /\ v_count v = k2 /\ v_curins v = op_ins o /\
  view s (op_buf o b) c false.

Lemma typing_op : forall o P ks1 n1 v s b c (Q : vi -> ed -> Prop), calm v s b c -> count ks1 n1 ->
  (forall v' s', operating o v' s' b c (stored ks1 n1) 0 -> Q v' s') ->
  typing P (ks1 ++ [op_key o]) v s Q.
Proof.
  intros o P ks1 n1 v s b c Q HC Hk HQ. eapply typing_counted; [exact HC|exact Hk|destruct o; split; discriminate|].
  intros E rec v1 s1 HE Hv1 Hmc Hst V. pose proof V as [_ [_ [Hc _]]].
  destruct o; unfold op_key, kch, vi_normal; decide_okv; apply okv_modk; apply okv_bind.
  - change (is_char (ch "d") "d") with true. cbv iota. unfold push_cur. apply okv_modk, okv_modk1.
    apply okv_gete. apply okv_bind. apply okv_set_mode; [exact I|]. apply okv_modk1. apply HQ.
    split; [cbn; rewrite Hst, Hc; reflexivity|]. split; [cbn; rewrite Hv1; reflexivity|]. split; [reflexivity|].
    split; [reflexivity|]. apply view_hint. eapply view_noeol. exact V.
  - change (is_char (ch "c") "d") with false. cbv iota. apply okv_modk.
    eapply okv_mono; [eapply okv_set_insert; [exact V|apply in_line; apply HC]|].
    intros ? v2 s2 [-> V2]. pose proof V2 as [_ [_ [Hc2 _]]].
    apply okv_gete. apply okv_bind. apply okv_set_mode; [exact I|]. apply okv_modk1. apply HQ.
    split; [cbn; rewrite Hst, Hc2; reflexivity|]. split; [cbn; rewrite Hv1; reflexivity|]. split; [reflexivity|].
    split; [reflexivity|]. apply view_hint. eapply view_noeol. exact V2.
Qed.

Definition joined (v : vi) : vi := vset_count
  (if (v_sec v =? 0)%N then v_count v
   else if (v_count v =? 0)%N then v_sec v
   else sat (v_sec v * v_count v)) v.
Lemma count_max : forall ks n, count ks n -> (n <= u32_max)%N.
Proof. intros ks n [|]; unfold u32_max; lia. Qed.
Lemma joined_count : forall ks1 n1 ks2 n2 v, count ks1 n1 -> count ks2 n2 ->
  v_sec v = stored ks1 n1 -> v_count v = stored ks2 n2 ->
  move_count (joined v) = N.min (n1 * n2) 4294967295.
Proof.
  intros ks1 n1 ks2 n2 v H1 H2 E1 E2. unfold move_count, joined. cbn [v_count vset_count]. rewrite E1, E2.
  pose proof (count_pos _ _ H1) as P1. pose proof (count_pos _ _ H2) as P2.
  pose proof (count_max _ _ H1) as M1. pose proof (count_max _ _ H2) as M2.
  change 4294967295%N with u32_max.
  assert (S1 : (ks1 = [] /\ n1 = 1%N /\ stored ks1 n1 = 0%N) \/ stored ks1 n1 = n1) by (destruct H1; cbn; auto).
  assert (S2 : (ks2 = [] /\ n2 = 1%N /\ stored ks2 n2 = 0%N) \/ stored ks2 n2 = n2) by (destruct H2; cbn; auto).
  assert (Hu : (1 < u32_max)%N) by reflexivity.
  destruct S1 as [[_ [-> ->]]| ->]; cbn [N.eqb].
  - rewrite N.mul_1_l. destruct S2 as [[_ [-> ->]]| ->]; [reflexivity|].
    apply N.eqb_neq in P2. rewrite P2. symmetry. apply N.min_l. exact M2.
  - apply N.eqb_neq in P1. rewrite P1. destruct S2 as [[_ [-> ->]]| ->].
    + cbn [N.eqb]. rewrite P1, N.mul_1_r. symmetry. apply N.min_l. exact M1.
    + pose proof P2 as P2'. apply N.eqb_neq in P2. rewrite P2. unfold sat.
      apply N.eqb_neq in P1.
      assert ((N.min (n1 * n2) u32_max =? 0)%N = false) as ->; [|reflexivity].
      apply N.eqb_neq. assert (n1 * n2 <> 0)%N by (apply N.neq_mul_0; auto). lia.
Qed.

(** A motion typed after [d], and a count typed after [d]. *)
Lemma okv_operate : forall o E k v s b c k1 k2 Q, operating o v s b c k1 k2 ->
  is_movement_key k = true \/ (k = kch "0" /\ k2 = 0%N) ->
  (forall rec, okv (vi_normal rec E k) (vset_cur (v_cur v ++ [k]) (joined v)) s Q) ->
  okv (vi_core E k) v s Q.
Proof.
  intros o E k v s b c k1 k2 Q [O1 [O2 [O3 [O4 O5]]]] Hk H. apply okv_core. intro rec.
  assert (vmode_of v = MDelete c) as -> by (unfold vmode_of; rewrite O1; reflexivity).
  unfold vi_delete_or_change. apply okv_getk.
  assert (is_movement_key k || (kis k "0" && (v_count v =? 0)%N) = true) as ->.
  { destruct Hk as [-> |[-> ->]]; [reflexivity|]. rewrite O3. reflexivity. }
  apply okv_modk. unfold push_cur. apply okv_modk. exact (H rec).
Qed.
Lemma typing_delete : forall o P ks1 n1 ks2 n2 mk v s b c (Q : vi -> ed -> Prop),
  calm v s b c -> count ks1 n1 -> count ks2 n2 ->
  (forall v' s' k1 k2, operating o v' s' b c k1 k2 -> (k2 <> 0%N -> ks2 <> []) ->
     move_count (joined v') = N.min (n1 * n2) 4294967295 -> typing P mk v' s' Q) ->
  typing P (ks1 ++ op_key o :: ks2 ++ mk) v s Q.
Proof.
  intros o P ks1 n1 ks2 n2 mk v s b c Q HC H1 H2 H.
  change (ks1 ++ op_key o :: ks2 ++ mk) with (ks1 ++ [op_key o] ++ (ks2 ++ mk)). rewrite app_assoc. apply typing_app.
  eapply typing_op; [exact HC|exact H1|]. intros v1 s1 [O1 [O2 [O3 [O4 O5]]]]. apply typing_app.
  eapply typing_count; [exact H2| |exact O3|].
  - right. exists c. unfold vmode_of. rewrite O1. reflexivity.
  - intros s2 Hs2.
    assert (Hop : operating o (vset_count (stored ks2 n2) v1) s2 b c (stored ks1 n1) (stored ks2 n2)).
    { split; [exact O1|]. split; [exact O2|]. split; [reflexivity|]. split; [exact O4|].
      destruct Hs2 as [-> | ->]; [exact O5|apply view_hint; exact O5]. }
    eapply H; [exact Hop| |].
    + intros Hn Hk. subst ks2. apply Hn. reflexivity.
    + apply (joined_count ks1 n1 ks2 n2); auto.
Qed.

Lemma after_delete_went : forall o E mt v s b c e p, view s (op_buf o b) p e ->
  v_stack v = MDelete c :: op_stack o \/ (exists m, pending m /\ v_stack v = m :: MDelete c :: op_stack o) ->
  okv (pop_mode_after_movement E mt) v s (fun _ v' s' =>
    went o b (Nat.min p c) (Nat.max p c + inclusive mt) v' (set_hint None s')).
Proof.
  intros o E mt v s b c e p V Hs.
  eapply okv_mono; [eapply (okv_after_delete E mt v s (op_buf o b) p e c (op_stack o)); [apply op_base|exact V|exact Hs]|].
  intros ? v' s' [a [m [r [H1 [H2 [H3 [H4 [H5 [_ [_ [H6 H7]]]]]]]]]]]. rewrite op_data in H1. destruct o.
  - assert (Hm : is_normal (vmode_of v') = true) by (unfold vmode_of; rewrite H4; reflexivity). rewrite Hm in H6.
    eapply gone_intro; eauto. rewrite H2 in H6. exact H6.
  - assert (Hm : vmode_of v' = MInsert) by (unfold vmode_of; rewrite H4; reflexivity).
    rewrite Hm in H6, H7. cbn [is_normal is_insert negb] in H6, H7.
    exists a, m, r. do 3 (split; [assumption|]). split; [exact H5|]. split; [exact H4|]. split; [exact H7|].
    rewrite clamp_false in H6 by (rewrite app_length; lia). rewrite H2 in H6.
    split; [apply view_hint; exact H6|]. unfold cut. cbn [data]. rewrite app_length. lia.
Qed.

Lemma typing_delete_onekey : forall o P ks1 n1 ks2 n2 k p v s b c, calm v s b c -> count ks1 n1 -> count ks2 n2 ->
  passes k -> is_movement_key k = true -> p <= length (data b) ->
  onekey k (N.min (n1 * n2) 4294967295) (length (data b)) c p ->
  typing P (ks1 ++ op_key o :: ks2 ++ [k]) v s (went o b (Nat.min p c) (Nat.max p c)).
Proof.
  intros o P ks1 n1 ks2 n2 k p v s b c HC H1 H2 Hp Hk Hle Ho.
  eapply typing_delete; [exact HC|exact H1|exact H2|]. intros v1 s1 k1 k2 Hop _ Hmc.
  apply typing_cons; [exact Hp|]. intros E _. eapply okv_operate; [exact Hop|left; exact Hk|]. intro rec.
  eapply okv_onekey; [apply Hop|rewrite op_data; rewrite <- Hmc in Ho; exact Ho|].
  rewrite op_data, clamp_false by exact Hle. intros s' V'.
  eapply okv_mono; [eapply after_delete_went; [exact V'|left; apply Hop]|].
  intros ? v' s2 H. apply typing_nil. cbn [inclusive] in H. rewrite Nat.add_0_r in H. exact H.
Qed.
(** [d0]; after a count, as in [3d0], the [0] is taken for a digit. *)
Lemma typing_delete_zero : forall o P v s b c, calm v s b c ->
  typing P [op_key o; kch "0"] v s (went o b 0 c).
Proof.
  intros o P v s b c HC. change [op_key o; kch "0"] with ([] ++ [op_key o] ++ [kch "0"]). rewrite app_assoc.
  apply typing_app. eapply typing_op; [exact HC|exact count_none|]. intros v1 s1 Hop. cbn [stored] in Hop.
  apply typing_cons; [split; discriminate|]. intros E _. eapply okv_operate; [exact Hop|right; auto|]. intro rec.
  destruct Hop as [O1 [O2 [O3 [O4 O5]]]].
  eapply okv_zero; [exact O5|cbn [v_count vset_cur joined vset_count]; rewrite O2, O3; reflexivity|].
  intros s' V'. eapply okv_mono; [eapply after_delete_went; [exact V'|left; exact O1]|].
  intros ? v' s2 H. apply typing_nil. cbn [inclusive] in H. rewrite Nat.add_0_r in H. exact H.
Qed.
Lemma typing_delete_word : forall o U ks1 n1 ks2 n2 m big k p v s b c, calm v s b c -> count ks1 n1 -> count ks2 n2 ->
  m = WNext \/ m = WBack -> word_keys m big = [k] ->
  p = Nat.min (iterp (N.to_nat (N.min (n1 * n2) 4294967295)) (word_once U m big (data b)) c) (length (data b)) ->
  typing (fun E => e_uni E = U) (ks1 ++ op_key o :: ks2 ++ [k]) v s (went o b (Nat.min p c) (Nat.max p c)).
Proof.
  intros o U ks1 n1 ks2 n2 m big k p v s b c HC H1 H2 Hm Hk Hp.
  eapply typing_delete; [exact HC|exact H1|exact H2|]. intros v1 s1 k1 k2 Hop _ Hmc.
  pose proof (word_keys_passes m big) as HP. rewrite Hk in HP. inversion_clear HP as [|? ? P1 _].
  apply typing_cons; [exact P1|]. intros E HE. eapply okv_operate; [exact Hop| |].
  { left. destruct Hm as [-> | ->], big; injection Hk as <-; reflexivity. }
  intro rec. eapply okv_word1; [apply Hop|exact Hk|].
  change (move_count (vset_cur (v_cur v1 ++ [k]) (joined v1))) with (move_count (joined v1)). rewrite Hmc, HE, op_data, <- Hp.
  rewrite clamp_false by (rewrite Hp; apply Nat.le_min_r). intros s' V'.
  eapply okv_mono; [eapply after_delete_went; [exact V'|left; apply Hop]|].
  intros ? v' s2 H. apply typing_nil. cbn [inclusive] in H. rewrite Nat.add_0_r in H. exact H.
Qed.
Lemma typing_delete_search : forall o P ks1 n1 ks2 n2 m k x q v s b c, calm v s b c -> count ks1 n1 -> count ks2 n2 ->
  search_key m = Some k -> x <> c_tab -> x <> c_nl ->
  search_hit m (data b) c x (N.min (n1 * n2) 4294967295) q ->
  typing P (ks1 ++ op_key o :: ks2 ++ [k; KChar x]) v s
    (went o b (Nat.min (search_stop m q) c) (Nat.max (search_stop m q) c + inclusive (mt_search m))).
Proof.
  intros o P ks1 n1 ks2 n2 m k x q v s b c HC H1 H2 Hm N1 N2 Hq.
  assert (Hp : passes k) by (destruct m; cbn in Hm; try discriminate; injection Hm as <-; split; discriminate).
  assert (Hmk : is_movement_key k = true) by (destruct m; cbn in Hm; try discriminate; injection Hm as <-; reflexivity).
  assert (Hreal : real m) by (unfold real; congruence).
  eapply typing_delete; [exact HC|exact H1|exact H2|]. intros v1 s1 k1 k2 Hop _ Hmc.
  apply typing_cons; [exact Hp|]. intros E _. eapply okv_operate; [exact Hop|left; exact Hmk|]. intro rec.
  assert (Hset : okv (set_mode E (MMoveToChar m)) (vset_cur (v_cur v1 ++ [k]) (joined v1)) s1 (fun _ v' s' =>
      typing P [KChar x] v' (set_hint None s')
    (went o b (Nat.min (search_stop m q) c) (Nat.max (search_stop m q) c + inclusive (mt_search m))))).
  { apply okv_set_mode; [exact I|]. apply typing_cons; [split; assumption|]. intros E' HE'. apply okv_core. intro rec'.
    cbn [vmode_of v_stack vset_stack]. apply okv_search; [exact Hreal|].
    eapply okv_search_body; [apply view_hint; eapply view_noeol; apply Hop|exact Hreal|rewrite op_data; apply in_line; apply HC|].
    change (move_count (vset_stack _ _)) with (move_count (joined v1)). rewrite Hmc, op_data.
    intros s' p Hs V'.
    destruct (searched_calm m (data b) c x _ p false (proj2 (proj2 (proj2 HC))) Hs) as [_ K2].
    rewrite K2 in V'. assert (V2 : view s' (op_buf o b) p false) by (destruct V'; assumption).
    assert (p = search_stop m q).
    { destruct Hs as [[q' [Hs ->]]|[Hs _]]; [|exfalso; exact (hit_miss _ _ _ _ _ _ Hq Hs)].
      f_equal. exact (search_fun _ _ _ _ _ _ _ Hs Hq). }
    subst p. eapply okv_mono.
    - eapply after_delete_went; [exact V2|]. right. exists (MMoveToChar m).
      split; [right; exists m; reflexivity|]. cbn. rewrite (proj1 Hop). reflexivity.
    - intros ? v' s2 H. apply typing_nil. exact H. }
  destruct m; cbn in Hm; try discriminate; injection Hm as <-; unfold kch, vi_normal; decide_okv; exact Hset.
Qed.

(** [x], [D], [dd] *)
Lemma typing_x : forall P ks n k v s b c, calm v s b c -> count ks n -> In k [kch "x"; KDelete] ->
  typing P (ks ++ [k]) v s (gone b c (Nat.min (c + N.to_nat n) (length (data b)))).
Proof.
  intros P ks n k v s b c HC Hk Hin.
  assert (Hp : passes k) by (destruct Hin as [<-|[<-|[]]]; [split; discriminate|exact I]).
  eapply typing_counted; [exact HC|exact Hk|exact Hp|].
  intros E rec v1 s1 HE Hv1 Hmc Hst V. pose proof V as [_ [_ [Hc _]]].
  assert (Hcut : okv (modk (fun v => vset_lcount (v_count v) (vi_set_last1 k v)) ;;;
    n <- mcr ;; s <- gete ;; lift (delete_until E (ed_cursor s + n)) ;;; modk (vset_count 0)) v1 s1
    (fun _ v' s' => gone b c (Nat.min (c + N.to_nat n) (length (data b))) v' (set_hint None s'))).
  { apply okv_modk. unfold mcr. apply okv_bind, okv_getk, okv_gete, okv_liftr. intros r Hr. apply okv_gete.
    rewrite Hc. eapply okv_lands; [apply (ok_delete_until E _ _ _ _ _ V)|].
    intros ? s' [a [m [z [K1 [K2 [K3 [K4 _]]]]]]]. apply okv_modk1.
    destruct (view_line _ _ _ _ V) as [b0 [B1 B2]]. unfold move_count_right in Hr. rewrite B1 in Hr. cbn [rbind] in Hr.
    unfold sub_chk, num_chars in Hr. rewrite B2, Hc in Hr. destruct (c <=? length (data b)) eqn:El; [|discriminate].
    apply Nat.leb_le in El. cbn [rbind] in Hr. injection Hr as <-.
    change (move_count (vset_lcount (v_count v1) (vi_set_last1 k v1))) with (move_count v1) in *. rewrite Hmc in *.
    eapply gone_intro; [exact K1|lia|lia|exact Hst|reflexivity|].
    assert (Ha : length a = c) by lia. rewrite Ha in K4. exact K4. }
  destruct Hin as [<-|[<-|[]]]; unfold kch, vi_normal; decide_okv; exact Hcut.
Qed.
Lemma typing_D : forall P ks n v s b c, calm v s b c -> count ks n ->
  typing P (ks ++ [kch "D"]) v s (gone b c (length (data b))).
Proof.
  intros P ks n v s b c HC Hk. eapply typing_counted; [exact HC|exact Hk|split; discriminate|].
  intros E rec v1 s1 HE Hv1 Hmc Hst V. unfold kch, vi_normal. decide_okv. apply okv_modk, okv_lift.
  eapply ok_mono; [apply (ok_delete_all_after E _ _ _ _ V)|]. intros ? s' [a [m [K1 [K2 [K3 _]]]]].
  eapply gone_intro; [rewrite app_nil_r; exact K1|exact K2| |exact Hst|reflexivity|].
  - rewrite K1, app_length. reflexivity.
  - rewrite app_nil_r, K2. exact K3.
Qed.
Lemma typing_line : forall o P ks1 n1 ks2 n2 v s b c, calm v s b c -> count ks1 n1 -> count ks2 n2 ->
  typing P (ks1 ++ op_key o :: ks2 ++ [op_key o]) v s (went o b 0 (length (data b))).
Proof.
  intros o P ks1 n1 ks2 n2 v s b c HC H1 H2. eapply typing_delete; [exact HC|exact H1|exact H2|].
  intros v1 s1 k1 k2 [O1 [O2 [O3 [O4 O5]]]] _ _. apply typing_cons; [destruct o; split; discriminate|]. intros E _.
  apply okv_core. intro rec.
  assert (vmode_of v1 = MDelete c) as -> by (unfold vmode_of; rewrite O1; reflexivity).
  unfold vi_delete_or_change. apply okv_getk. rewrite O4.
  assert (is_movement_key (op_key o) || (kis (op_key o) "0" && (v_count v1 =? 0)%N) = false) as -> by (destruct o; reflexivity).
  assert (match op_key o with KChar c0 => ((48 <=? c0) && (c0 <=? 57))%N | _ => false end = false) as ->
    by (destruct o; reflexivity).
  assert ((kis (op_key o) "c" && match op_ins o with Some j => kis j "c" | None => false end)
       || (kis (op_key o) "d" && match op_ins o with Some _ => false | None => true end) = true) as ->
    by (destruct o; reflexivity).
  unfold push_cur.
  apply okv_modk, okv_modk. eapply okv_lands; [apply (ok_move_start E _ _ _ _ O5)|]. intros ? s2 [V2 _].
  eapply okv_lands; [apply (ok_delete_all_after E _ _ _ _ V2)|]. intros ? s3 [a1 [m [K1 [K2 [V3 _]]]]].
  destruct a1; [|discriminate]. unfold pop_mode. apply okv_getk.
  set (v2 := vset_sec 0 (vset_count 0 (vset_cur (v_cur v1 ++ [op_key o]) v1))).
  assert (Hpop : vpop v2 = (MDelete c, vset_stack (op_stack o) v2)) by (unfold vpop, v2; cbn; rewrite O1; reflexivity).
  rewrite Hpop. cbv iota beta zeta. apply okv_modk, okv_mod_ed.
  cbn [is_insert is_tilde orb when]. apply okv_bind, okv_ret, okv_bind, okv_ret.
  eapply okv_mono; [eapply okv_set_editor_mode; [|eapply view_noeol; exact V3]|].
  { destruct o; [left|right]; reflexivity. }
  rewrite op_data in K1. cbn [app] in K1.
  intros ? v' s4 [-> V4]. apply typing_nil. unfold cut in V4 at 2. cbn [data app] in V4. destruct o.
  - eapply (gone_intro b 0 _ _ _ [] m []); [rewrite app_nil_r; exact K1|reflexivity| |reflexivity|reflexivity|exact V4].
    rewrite K1. reflexivity.
  - exists [], m, []. rewrite app_nil_r. split; [exact K1|]. split; [reflexivity|]. split; [rewrite K1; reflexivity|].
    split; [reflexivity|]. split; [reflexivity|]. split; [reflexivity|]. split; [apply view_hint; exact V4|]. cbn. lia.
Qed.

(** The general statement. *)
Lemma typing_delete_span : forall o P ks1 n1 ks2 n2 mk i j v s b c, calm v s b c -> count ks1 n1 -> count ks2 n2 ->
  (mk = [kch "0"] -> ks1 = [] /\ ks2 = []) -> (forall k x, mk = [k; KChar x] -> x <> c_tab /\ x <> c_nl) ->
  span (data b) c (N.min (n1 * n2) 4294967295) mk i j ->
  typing P (ks1 ++ op_key o :: ks2 ++ mk) v s (went o b i j).
Proof.
  intros o P ks1 n1 ks2 n2 mk i j v s b c HC H1 H2 H0 Hx Hs.
  pose proof (in_line (data b) c (proj2 (proj2 (proj2 HC)))) as Hle.
  set (n := N.min (n1 * n2) 4294967295) in *.
  assert (Hone : forall k p, In k [kch "h"; KBackspace; kch "l"; kch " "; kch "^"; kch "$"] -> p <= length (data b) ->
    onekey k n (length (data b)) c p -> typing P (ks1 ++ op_key o :: ks2 ++ [k]) v s (went o b (Nat.min p c) (Nat.max p c))).
  { intros k p Hk Hp Ho. apply (typing_delete_onekey o P ks1 n1 ks2 n2 k p v s b c HC H1 H2); [| |exact Hp|exact Ho].
    - cbn [In] in Hk. repeat destruct Hk as [<-|Hk]; try (split; discriminate). contradiction.
    - cbn [In] in Hk. repeat destruct Hk as [<-|Hk]; try reflexivity. contradiction. }
  destruct Hs as [k Hk|k Hk|k Hk| |x p Hp|x p Hp|x p Hp|x p Hp].
  - specialize (Hone k (c - N.to_nat n)). rewrite Nat.min_l, Nat.max_r in Hone by lia. apply Hone.
    + cbn [In] in *. tauto.
    + lia.
    + left. auto.
  - specialize (Hone k (Nat.min (c + N.to_nat n) (length (data b)))). rewrite (Nat.min_r _ c), (Nat.max_l _ c) in Hone by lia. apply Hone.
    + cbn [In] in *. tauto.
    + lia.
    + right. left. auto.
  - destruct Hk as [<-|[<-|[]]].
    + destruct H0 as [-> ->]; [reflexivity|]. apply typing_delete_zero. exact HC.
    + apply (Hone (kch "^") 0); [cbn; tauto|lia|]. right. right. left. cbn. auto.
  - specialize (Hone (kch "$") (length (data b))). rewrite Nat.min_r, Nat.max_l in Hone by lia. apply Hone; [cbn; tauto|lia|].
    right. right. right. cbn. auto.
  - destruct (Hx (kch "f") x eq_refl) as [N1 N2].
    pose proof (typing_delete_search o P ks1 n1 ks2 n2 RightAt _ x p v s b c HC H1 H2 eq_refl N1 N2 Hp) as H.
    cbn [search_stop mt_search inclusive] in H. assert (c < p) by (destruct Hp as [? [? [? [? [? [? ->]]]]]]; lia).
    rewrite Nat.min_r, Nat.max_l in H by lia. exact H.
  - destruct (Hx (kch "t") x eq_refl) as [N1 N2].
    pose proof (typing_delete_search o P ks1 n1 ks2 n2 RightUntil _ x p v s b c HC H1 H2 eq_refl N1 N2 Hp) as H.
    cbn [search_stop mt_search inclusive] in H. assert (c < p) by (destruct Hp as [? [? [? [? [? [? ->]]]]]]; lia).
    rewrite Nat.min_r, Nat.max_l in H by lia. replace (p - 1 + 1) with p in H by lia. exact H.
  - destruct (Hx (kch "F") x eq_refl) as [N1 N2].
    pose proof (typing_delete_search o P ks1 n1 ks2 n2 LeftAt _ x p v s b c HC H1 H2 eq_refl N1 N2 Hp) as H.
    cbn [search_stop mt_search inclusive] in H. assert (p < c) by (destruct Hp as [? [? [? [? [? [? ->]]]]]]; lia).
    rewrite Nat.min_l, Nat.max_r, Nat.add_0_r in H by lia. exact H.
  - destruct (Hx (kch "T") x eq_refl) as [N1 N2].
    pose proof (typing_delete_search o P ks1 n1 ks2 n2 LeftUntil _ x p v s b c HC H1 H2 eq_refl N1 N2 Hp) as H.
    cbn [search_stop mt_search inclusive] in H. assert (p < c) by (destruct Hp as [? [? [? [? [? [? ->]]]]]]; lia).
    rewrite Nat.min_l, Nat.max_r, Nat.add_0_r in H by lia. exact H.
Qed.
Lemma typing_delete_wspan : forall o U ks1 n1 ks2 n2 mk i j v s b c, calm v s b c -> count ks1 n1 -> count ks2 n2 ->
  blank_not_key U -> word_span U (data b) c (N.min (n1 * n2) 4294967295) mk i j ->
  typing (fun E => e_uni E = U) (ks1 ++ op_key o :: ks2 ++ mk) v s (went o b i j).
Proof.
  intros o U ks1 n1 ks2 n2 mk i j v s b c HC H1 H2 HU Hs.
  pose proof (in_line (data b) c (proj2 (proj2 (proj2 HC)))) as Hle.
  destruct Hs as [big p Hp|big p Hp].
  - assert (Hk : exists k, word_keys WNext big = [k]) by (destruct big; eexists; reflexivity). destruct Hk as [k Hk].
    assert (Hle2 : forall n a q, a <= length (data b) ->
      hops (next (word_start U big (data b))) (length (data b)) n a q -> a <= q).
    { intros n a q Ha H. revert Ha. induction H as [a|n a a1 a2 K1 K2 IH|n a K]; intro Ha; [lia| |exact Ha].
      pose proof (hop_lt U WNext _ _ _ _ K1). destruct K1 as [K1 _]. specialize (IH ltac:(lia)). lia. }
    pose proof (Hle2 _ _ _ Hle Hp) as Hcp. rewrite Hk.
    pose proof (next_hops U big (data b) (N.to_nat (N.min (n1 * n2) 4294967295)) c Hle) as Hn.
    pose proof (hops_fun _ _ (next_fun _) _ _ _ _ Hp Hn) as He.
    pose proof (typing_delete_word o U ks1 n1 ks2 n2 WNext big k p v s b c HC H1 H2 (or_introl eq_refl) Hk He) as H.
    rewrite Nat.min_r, Nat.max_l in H by exact Hcp. exact H.
  - assert (Hk : exists k, word_keys WBack big = [k]) by (destruct big; eexists; reflexivity). destruct Hk as [k Hk].
    assert (Hle2 : forall n a q, hops (prev (word_start U big (data b))) 0 n a q -> q <= a).
    { intros n a q H. induction H as [a|n a a1 a2 K1 K2 IH|n a K]; [lia| |lia]. destruct K1 as [K1 _]. lia. }
    pose proof (Hle2 _ _ _ Hp) as Hcp. rewrite Hk.
    pose proof (back_hops U big (data b) (N.to_nat (N.min (n1 * n2) 4294967295)) c HU Hle) as Hn.
    pose proof (hops_fun _ _ (prev_fun _) _ _ _ _ Hp Hn) as He.
    pose proof (typing_delete_word o U ks1 n1 ks2 n2 WBack big k p v s b c HC H1 H2 (or_intror eq_refl) Hk He) as H.
    rewrite Nat.min_l, Nat.max_r in H by exact Hcp. exact H.
Qed.

(** * Sessions *)

Definition any (E : env) : Prop := True.
Lemma any_all : forall (l : list (env * key)), Forall (fun x => any (fst x)) l.
Proof. intro l. apply Forall_forall. intros x _. exact I. Qed.

Lemma gone_ready : forall v s l v' s' b i j, vi_session v s ->
  run_keys vi_core l (v, s) = ORet false (v', s') -> gone b i j v' s' ->
  let t' := firstn i (data b) ++ skipn j (data b) in
  i <= j /\ j <= length (data b) /\ ready v' s' t' (Nat.min i (length t' - 1)).
Proof.
  intros v s l v' s' b i j Hs Hr [a [m [r [H1 [H2 [H3 H4]]]]]]. cbv zeta.
  assert (F : firstn i (data b) = a) by (rewrite H1; apply firstn_app_eq; lia).
  assert (K : skipn j (data b) = r).
  { rewrite H1, app_assoc. apply skipn_app_eq. rewrite app_length. lia. }
  rewrite F, K. split; [lia|]. split; [rewrite H1, !app_length; lia|].
  apply (calm_ready _ _ _ _ _ _ _ Hs Hr H4).
Qed.

Lemma vi_count : forall v s t c ks n l d v' s',
  ready v s t c -> count ks n -> ks <> [] -> map snd l = ks ->
  run_keys vi_core l (v, s) = ORet d (v', s') ->
  d = false /\ v' = vset_count n v /\ line_is s' t c.
Proof.
  intros v s t c ks n l d v' s' Hr Hk Hn Hl H.
  destruct (ready_typing v s t c any ks l d v' s'
    (fun b v' s' => v' = vset_count n v /\ view s' b c true) Hr) as [H1 [b [Hb [[H2 H3] _]]]]; auto.
  - intros b Hb HC. eapply typing_count; [exact Hk|exact (counting_calm _ _ _ _ HC)|apply HC|].
    intros s1 Hs1. split; [destruct ks; [contradiction|reflexivity]|].
    destruct Hs1 as [-> | ->]; [apply HC|apply view_hint; apply HC].
  - apply any_all.
  - split; [exact H1|]. split; [exact H2|]. pose proof H3 as [_ [_ [Hc _]]].
    destruct (view_line _ _ _ _ H3) as [b0 [K1 K2]]. exists b0. split; [exact K1|]. split; [congruence|exact Hc].
Qed.

Lemma vi_delete_span : forall v s t c ks1 n1 ks2 n2 mk i j l d v' s',
  ready v s t c -> count ks1 n1 -> count ks2 n2 ->
  (mk = [kch "0"] -> ks1 = [] /\ ks2 = []) -> (forall k x, mk = [k; KChar x] -> x <> c_tab /\ x <> c_nl) ->
  span t c (N.min (n1 * n2) 4294967295) mk i j ->
  map snd l = ks1 ++ kch "d" :: ks2 ++ mk -> run_keys vi_core l (v, s) = ORet d (v', s') ->
  d = false /\ i <= j /\ j <= length t /\
  let t' := firstn i t ++ skipn j t in ready v' s' t' (Nat.min i (length t' - 1)).
Proof.
  intros v s t c ks1 n1 ks2 n2 mk i j l d v' s' Hr H1 H2 H0 Hx Hs Hl H.
  destruct (ready_typing v s t c any (map snd l) l d v' s' (fun b => gone b i j) Hr) as [-> [b [<- [Hg _]]]]; [|reflexivity|apply any_all|exact H|].
  - intros b Hb HC. rewrite Hl. subst t. apply (typing_delete_span Del any ks1 n1 ks2 n2 mk i j v s b c HC H1 H2 H0 Hx Hs).
  - split; [reflexivity|]. exact (gone_ready _ _ _ _ _ _ _ _ (proj1 Hr) H Hg).
Qed.
Lemma vi_delete_wspan : forall U v s t c ks1 n1 ks2 n2 mk i j l d v' s',
  ready v s t c -> count ks1 n1 -> count ks2 n2 -> blank_not_key U ->
  word_span U t c (N.min (n1 * n2) 4294967295) mk i j ->
  map snd l = ks1 ++ kch "d" :: ks2 ++ mk -> Forall (fun x => e_uni (fst x) = U) l ->
  run_keys vi_core l (v, s) = ORet d (v', s') ->
  d = false /\ i <= j /\ j <= length t /\
  let t' := firstn i t ++ skipn j t in ready v' s' t' (Nat.min i (length t' - 1)).
Proof.
  intros U v s t c ks1 n1 ks2 n2 mk i j l d v' s' Hr H1 H2 HU Hs Hl HE H.
  destruct (ready_typing v s t c (fun E => e_uni E = U) (map snd l) l d v' s' (fun b => gone b i j) Hr)
    as [-> [b [<- [Hg _]]]]; [|reflexivity|exact HE|exact H|].
  - intros b Hb HC. rewrite Hl. subst t. apply (typing_delete_wspan Del U ks1 n1 ks2 n2 mk i j v s b c HC H1 H2 HU Hs).
  - split; [reflexivity|]. exact (gone_ready _ _ _ _ _ _ _ _ (proj1 Hr) H Hg).
Qed.
Lemma vi_x : forall v s t c ks n k l d v' s', ready v s t c -> count ks n -> In k [kch "x"; KDelete] ->
  map snd l = ks ++ [k] -> run_keys vi_core l (v, s) = ORet d (v', s') ->
  d = false /\ let t' := firstn c t ++ skipn (c + N.to_nat n) t in ready v' s' t' (Nat.min c (length t' - 1)).
Proof.
  intros v s t c ks n k l d v' s' Hr H1 Hk Hl H.
  destruct (ready_typing v s t c any (map snd l) l d v' s' (fun b => gone b c (Nat.min (c + N.to_nat n) (length (data b)))) Hr)
    as [-> [b [<- [Hg _]]]]; [|reflexivity|apply any_all|exact H|].
  - intros b Hb HC. rewrite Hl. eapply typing_x; eauto.
  - split; [reflexivity|].
    destruct (gone_ready _ _ _ _ _ _ _ _ (proj1 Hr) H Hg) as [_ [_ K]]. cbv zeta in *.
    replace (skipn (c + N.to_nat n) (data b)) with (skipn (Nat.min (c + N.to_nat n) (length (data b))) (data b)); [exact K|].
    destruct (Nat.min_spec (c + N.to_nat n) (length (data b))) as [[_ ->]|[L ->]]; [reflexivity|].
    rewrite !skipn_all2 by lia. reflexivity.
Qed.
Lemma vi_D : forall v s t c ks n l d v' s', ready v s t c -> count ks n ->
  map snd l = ks ++ [kch "D"] -> run_keys vi_core l (v, s) = ORet d (v', s') ->
  d = false /\ ready v' s' (firstn c t) (c - 1).
Proof.
  intros v s t c ks n l d v' s' Hr H1 Hl H.
  destruct (ready_typing v s t c any (map snd l) l d v' s' (fun b => gone b c (length (data b))) Hr)
    as [-> [b [<- [Hg HC]]]]; [|reflexivity|apply any_all|exact H|].
  - intros b Hb HC. rewrite Hl. eapply typing_D; eauto.
  - split; [reflexivity|].
    destruct (gone_ready _ _ _ _ _ _ _ _ (proj1 Hr) H Hg) as [_ [_ K]]. cbv zeta in *.
    rewrite skipn_all, app_nil_r in K.
    pose proof (in_line (data b) c (proj2 (proj2 (proj2 HC)))) as Hle. rewrite firstn_length in K.
    replace (Nat.min c (Nat.min c (length (data b)) - 1)) with (c - 1) in K by lia. exact K.
Qed.
Lemma vi_dd : forall v s t c ks1 n1 ks2 n2 l d v' s', ready v s t c -> count ks1 n1 -> count ks2 n2 ->
  map snd l = ks1 ++ kch "d" :: ks2 ++ [kch "d"] -> run_keys vi_core l (v, s) = ORet d (v', s') ->
  d = false /\ ready v' s' [] 0.
Proof.
  intros v s t c ks1 n1 ks2 n2 l d v' s' Hr H1 H2 Hl H.
  destruct (ready_typing v s t c any (map snd l) l d v' s' (fun b => gone b 0 (length (data b))) Hr)
    as [-> [b [<- [Hg HC]]]]; [|reflexivity|apply any_all|exact H|].
  - intros b Hb HC. rewrite Hl. apply (typing_line Del any ks1 n1 ks2 n2 v s b c HC H1 H2).
  - split; [reflexivity|].
    destruct (gone_ready _ _ _ _ _ _ _ _ (proj1 Hr) H Hg) as [_ [_ K]]. cbv zeta in *.
    rewrite skipn_all in K. exact K.
Qed.

Lemma vi_move : forall v s t c ks n k p l d v' s', ready v s t c -> count ks n ->
  (In k [kch "h"; KBackspace] /\ p = c - N.to_nat n \/
   In k [kch "l"; kch " "] /\ p = Nat.min (c + N.to_nat n) (length t - 1) \/
   (k = kch "^" \/ k = kch "0" /\ ks = []) /\ p = 0 \/ k = kch "$" /\ p = length t - 1) ->
  map snd l = ks ++ [k] -> run_keys vi_core l (v, s) = ORet d (v', s') ->
  d = false /\ ready v' s' t p.
Proof.
  intros v s t c ks n k p l d v' s' Hr H1 Hk Hl H.
  destruct (ready_typing v s t c any (map snd l) l d v' s' (fun b v' s' => calm v' s' b p) Hr)
    as [-> [b [<- [Hg HC]]]]; [|reflexivity|apply any_all|exact H|].
  - intros b Hb HC. rewrite Hl. subst t.
    assert (Hz : k = kch "0" /\ ks = [] /\ p = 0 \/
      (In k [kch "h"; KBackspace] /\ p = c - N.to_nat n \/
       In k [kch "l"; kch " "] /\ p = Nat.min (c + N.to_nat n) (length (data b) - 1) \/
       k = kch "^" /\ p = 0 \/ k = kch "$" /\ p = length (data b) - 1)) by tauto.
    clear Hk. destruct Hz as [[-> [-> ->]]|Hk]; [apply (typing_zero any v s b c HC)|].
    assert (Hp : passes k).
    { cbn [In] in Hk. intuition subst; try (split; discriminate); exact I. }
    pose proof (proj2 (proj2 (proj2 HC))) as Hin.
    assert (Ho : exists q, onekey k n (length (data b)) c q /\ clamp_cursor true (length (data b)) q = p).
    { destruct Hk as [[Hk ->]|[[Hk ->]|[[-> ->]|[-> ->]]]]; eexists.
      - split; [left; split; [exact Hk|reflexivity]|]. apply clamp_calm. destruct Hin as [Hin|[Hin ->]]; [left; lia|right; auto].
      - split; [right; left; split; [exact Hk|reflexivity]|]. rewrite clamp_stop by lia. unfold stop_at. lia.
      - split; [right; right; left; split; [left; reflexivity|reflexivity]|]. apply clamp_0.
      - split; [right; right; right; split; [left; reflexivity|reflexivity]|]. apply clamp_end. }
    destruct Ho as [q [Ho <-]].
    eapply typing_mono; [eapply typing_onekey; [exact HC|exact H1|exact Hp|exact Ho]|].
    intros v2 s2 [K _]. exact K.
  - split; [reflexivity|]. exact (calm_ready _ _ _ _ _ _ _ (proj1 Hr) H Hg).
Qed.

Lemma vi_word : forall U v s t c ks n m big l d v' s', ready v s t c -> count ks n -> blank_not_key U ->
  map snd l = ks ++ word_keys m big -> Forall (fun x => e_uni (fst x) = U) l ->
  run_keys vi_core l (v, s) = ORet d (v', s') ->
  d = false /\ exists p, hops (word_hop U m big t) (word_stop m t) (N.to_nat n) c p /\ ready v' s' t p.
Proof.
  intros U v s t c ks n m big l d v' s' Hr H1 HU Hl HE H.
  destruct (ready_typing v s t c (fun E => e_uni E = U) (map snd l) l d v' s' (fun b v' s' => exists p,
    hops (word_hop U m big (data b)) (word_stop m (data b)) (N.to_nat n) c p /\ calm v' s' b p) Hr)
    as [-> [b [<- [[p [Hp Hg]] HC]]]]; [|reflexivity|exact HE|exact H|].
  - intros b Hb HC. rewrite Hl. eapply typing_word; eauto.
  - split; [reflexivity|]. exists p. split; [exact Hp|]. exact (calm_ready _ _ _ _ _ _ _ (proj1 Hr) H Hg).
Qed.

Lemma vi_find : forall v s t c ks n m k x l d v' s', ready v s t c -> count ks n -> search_key m = Some k ->
  x <> c_tab -> x <> c_nl ->
  map snd l = ks ++ [k; KChar x] -> run_keys vi_core l (v, s) = ORet d (v', s') ->
  d = false /\ v_lcm v' = Some (x, m) /\
  ((exists p, search_hit m t c x n p /\ ready v' s' t (search_stop m p)) \/
   search_miss m t c x n /\ ready v' s' t c).
Proof.
  intros v s t c ks n m k x l d v' s' Hr H1 Hm N1 N2 Hl H.
  destruct (ready_typing v s t c any (map snd l) l d v' s' (fun b v' s' => exists p,
    searched m (data b) c x n p /\ calm v' s' b p /\ v_lcm v' = Some (x, m)) Hr)
    as [-> [b [<- [[p [Hp [Hg Hlc]]] HC]]]]; [|reflexivity|apply any_all|exact H|].
  - intros b Hb HC. rewrite Hl. eapply typing_search; eauto.
  - split; [reflexivity|]. split; [exact Hlc|].
    pose proof (calm_ready _ _ _ _ _ _ _ (proj1 Hr) H Hg) as K.
    destruct Hp as [[q [Hq ->]]|[Hq ->]]; [left; exists q; auto|right; auto].
Qed.
Lemma direct_real : forall v s x m, vi_session v s -> v_lcm v = Some (x, m) -> real m.
Proof.
  intros v s x m Hs Hl. destruct (session_inv v s Hs) as [[n HJ] _]. pose proof (j_lcm _ _ HJ x m Hl) as [D1 D2].
  unfold real. destruct m; try discriminate; contradiction.
Qed.
Lemma vi_find_again : forall v s t c ks n m x (rev : bool) l d v' s', ready v s t c -> count ks n ->
  v_lcm v = Some (x, m) ->
  map snd l = ks ++ [if rev then kch "," else kch ";"] -> run_keys vi_core l (v, s) = ORet d (v', s') ->
  let m' := if rev then reverse_search m else m in
  d = false /\ v_lcm v' = Some (x, m) /\
  ((exists p, search_hit m' t c x n p /\ ready v' s' t (search_stop m' p)) \/
   search_miss m' t c x n /\ ready v' s' t c).
Proof.
  intros v s t c ks n m x rv l d v' s' Hr H1 Hm Hl H. cbv zeta.
  pose proof (direct_real _ _ _ _ (proj1 Hr) Hm) as Hreal.
  destruct (ready_typing v s t c any (map snd l) l d v' s' (fun b v' s' => exists p,
    searched (if rv then reverse_search m else m) (data b) c x n p /\ calm v' s' b p /\ v_lcm v' = v_lcm v) Hr)
    as [-> [b [<- [[p [Hp [Hg Hlc]]] HC]]]]; [|reflexivity|apply any_all|exact H|].
  - intros b Hb HC. rewrite Hl. destruct rv; [eapply typing_reverse; eauto|eapply typing_again; eauto].
  - split; [reflexivity|]. split; [congruence|].
    pose proof (calm_ready _ _ _ _ _ _ _ (proj1 Hr) H Hg) as K.
    destruct Hp as [[q [Hq ->]]|[Hq ->]]; [left; exists q; auto|right; auto].
Qed.

(** * Concrete sessions *)
Definition ready_b (o : out (vi * ed) bool) (t : text) (c : nat) : bool :=
  match o with
  | ORet false (v, s) =>
    is_normal (vmode_of v) && (v_count v =? 0)%N && negb (is_search s) &&
    match cur_buf s with Val b => text_eqb (data b) t && (ed_cursor s =? c) | Pan _ => false end
  | _ => false
  end.
Lemma ready_run : forall E h ks t c, ready_b (vi_run E h ks) t c = true ->
  exists v s, vi_run E h ks = ORet false (v, s) /\ ready v s t c.
Proof.
  intros E h ks t c H. unfold ready_b in H. destruct (vi_run E h ks) as [[|] [v s]| | |] eqn:Er; try discriminate.
  exists v, s. split; [reflexivity|]. apply andb_true_iff in H. destruct H as [H H4].
  apply andb_true_iff in H. destruct H as [H H3]. apply andb_true_iff in H. destruct H as [H1 H2].
  unfold vi_run, sample_run in Er. destruct (sample_new E h) as [[] s0| | |] eqn:En; try discriminate.
  unfold sample_new in En. split; [|split; [|split; [|split]]].
  - do 9 eexists. eexists. split; [exact En|exact Er].
  - destruct (vmode_of v); try discriminate. reflexivity.
  - apply N.eqb_eq. exact H2.
  - apply negb_true_iff. exact H3.
  - destruct (cur_buf s) as [b|] eqn:Eb; [|discriminate]. apply andb_true_iff in H4. destruct H4 as [H4 H5].
    exists b. apply text_eqb_eq in H4. apply Nat.eqb_eq in H5. auto.
Qed.
(** The keys [l2] typed in a state reached by [l1]. *)
Lemma vi_run_app : forall E h l1 l2 v s, vi_run E h l1 = ORet false (v, s) ->
  vi_run E h (l1 ++ l2) = run_keys vi_core (map (pair E) l2) (v, s).
Proof.
  intros E h l1 l2 v s H. unfold vi_run, sample_run in *. destruct (sample_new E h) as [u s0| | |]; try discriminate.
  rewrite map_app. unfold bind in *. destruct (vi_init E (vi_new, s0)) as [u' x| | |]; try discriminate.
  rewrite run_keys_app. unfold bind. rewrite H. reflexivity.
Qed.
Lemma ready_then : forall E h l1 l2 t c t' c',
  ready_b (vi_run E h l1) t c && ready_b (vi_run E h (l1 ++ l2)) t' c' = true ->
  exists v s v' s', ready v s t c /\ run_keys vi_core (map (pair E) l2) (v, s) = ORet false (v', s') /\ ready v' s' t' c'.
Proof.
  intros E h l1 l2 t c t' c' H. apply andb_true_iff in H. destruct H as [H1 H2].
  destruct (ready_run _ _ _ _ _ H1) as [v [s [K1 K2]]]. destruct (ready_run _ _ _ _ _ H2) as [v' [s' [K3 K4]]].
  exists v, s, v', s'. split; [exact K2|]. split; [|exact K4]. rewrite <- (vi_run_app E h l1 l2 v s K1). exact K3.
Qed.
Lemma keys_typed : forall E l, map snd (map (@pair env key E) l) = l.
Proof. intros E l. rewrite map_map. apply map_id. Qed.

Lemma vi_product : forall v s t c ks1 n1 ks2 n2 l d v' s',
  ready v s t c -> count ks1 n1 -> count ks2 n2 ->
  map snd l = ks1 ++ kch "d" :: ks2 ++ [kch "l"] -> run_keys vi_core l (v, s) = ORet d (v', s') ->
  d = false /\
  let t' := firstn c t ++ skipn (Nat.min (c + N.to_nat (N.min (n1 * n2) 4294967295)) (length t)) t in
  ready v' s' t' (Nat.min c (length t' - 1)).
Proof.
  intros v s t c ks1 n1 ks2 n2 l d v' s' Hr H1 H2 Hl H.
  destruct (vi_delete_span v s t c ks1 n1 ks2 n2 [kch "l"] c
    (Nat.min (c + N.to_nat (N.min (n1 * n2) 4294967295)) (length t)) l d v' s' Hr H1 H2) as [K1 [_ [_ K2]]]; auto;
    try discriminate.
  apply span_right. left. reflexivity.
Qed.
Lemma search_determined : forall m t c x n p q, search_hit m t c x n p ->
  ~ search_miss m t c x n /\ (search_hit m t c x n q -> p = q).
Proof. intros m t c x n p q H. split; [exact (hit_miss _ _ _ _ _ _ H)|]. apply search_fun. exact H. Qed.
Lemma ascii_blank : forall x, u_white ascii_uni x = true -> is_vi_keyword ascii_uni x = false.
Proof.
  intros x H. cbn [u_white ascii_uni] in H. unfold is_vi_keyword, is_char. cbn [u_alnum ascii_uni].
  change (ch "_") with 95%N.
  assert (x <= 32)%N.
  { apply orb_true_iff in H. destruct H as [H|H]; [apply N.eqb_eq in H; lia|].
    apply andb_true_iff in H. destruct H as [_ H]. apply N.leb_le in H. lia. }
  assert ((x =? 95) = false)%N as -> by (apply N.eqb_neq; lia).
  assert ((97 <=? x) = false)%N as -> by (apply N.leb_gt; lia).
  assert ((65 <=? x) = false)%N as -> by (apply N.leb_gt; lia).
  assert ((48 <=? x) = false)%N as -> by (apply N.leb_gt; lia). reflexivity.
Qed.
